# A Rocq model of safing/jess

Everything is in `rocq/theories/` (logical name `Verif`), Coq 8.16.1, standard library only.
Build: `cd rocq && coq_makefile -f _CoqProject -o Makefile && make -j4` (about four minutes).

## Method

* Each Go function that carries a property is re-written as a Gallina function in a *model file* (no
  proofs in it); every definition cites the file and lines in /repo.  Concurrency (`supply`, wire
  sessions) is a step relation over the sections that hold a lock / over messages.
* `Spec*.v` files hold the vocabulary the theorems are stated in (no proofs, no use of the model's
  helpers where it can be avoided): maps, queues, reference checksums, FIFO channels, ...
* Proofs live in `*Facts.v`, `Core*.v`, `Wire*.v`; the theorems that answer `properties.jsonl` live in
  `Prop*.v` and are named `Cnn_...`.  Beside each is an `Example`/theorem `..._met`, `..._witness` or
  `..._satisfiable` in which a concrete case meets the hypotheses.
* Where the code violates what one would expect, the English property states exactly what is true, a
  theorem proves that, and a theorem `Cnn_..._refuted` proves the existence of a concrete run of the
  model in which the expected statement fails.  No theorem carries the suffix `_partial`.
* every theorem the manifest names is followed by `Print Assumptions` in its file.

### Modelling conventions

* `[]byte` and `string` are `list byte`; nil and empty slices are identified unless said otherwise.
* `(T, error)` is `outcome T = Ok | Err | Panic`. `Panic` is an explicit result (index out of range,
  nil dereference, a library that panics), so "never crashes" is a statement about outcomes.
* Mutation through a pointer returns the new value (e.g. `to_file_format` returns the letter as it is
  after the call; `open`/`close` return the content of the caller's buffer afterwards).
* Randomness is an arbitrary oracle indexed by a draw counter; theorems quantify over all oracles
  (including one that fails at any draw, where the Go code returns an error).
* Cryptographic primitives are fields of a record (`Crypto.v`) that theorems quantify over; the laws
  used (decrypt-after-encrypt, Diffie-Hellman commutation, sign/verify, ...) are hypotheses of the
  theorems that need them and are shown satisfiable by a toy instance (`Toy.v`). Nothing is an axiom.
* Go's `int` is `Z` (bounded where overflow matters: `supply.Fill`, varints, block lengths).

## Trusted base

1. Coq's kernel (8.16.1), its VM (`vm_compute` is used for concrete runs and finite sweeps) and the
   standard library.
2. `Print Assumptions` gives **"Closed under the global context"** for every theorem in the manifest:
   no axiom of the standard library, none of our own. There is no `Admitted`, no `Parameter`/`Axiom`,
   no functor or module type.  Sections are used; every section variable a theorem depends on is
   universally quantified in its closed statement.
3. The faithfulness of the model to the Go source, read as text; nothing was executed.
4. Third-party behaviour, not in /repo, is either a *parameter* (the theorem holds for every behaviour,
   or for every behaviour with the law named in its hypotheses) or *assumed as modelled*:

| component | treatment |
|-----------|-----------|
| `safing/structures/container`, `varint` | assumed as modelled (`Container.v`): LEB128 with Go's limits, `Unpack8` limit is a parameter width, block length wrap at 2^63 modelled |
| `dsd` CBOR/JSON/MsgPack codecs (letters, signets, envelopes, file data) | parameters; round-trip theorems assume the codec restores the values used |
| AEAD, stream ciphers, MACs, signatures, key exchange, RSA, KDFs, PBKDF2/scrypt, hashes | parameters, laws as hypotheses (`Crypto.v`, `SpecCore.v`, `SpecOpen.v`) |
| the managed hashers, salted/unsalted KDF input layout, HKDF-reader offsets | modelled in `Core.v` |
| elliptic curve checks, `big.Int` bytes, PKCS#1 (C26) | curve checks and PKCS#1 are parameters; big integers are modelled |
| `encoding/hex`, `encoding/base64`, `mr-tron/base58` | modelled concretely (`Encodings.v`): non-strict base64 that skips CR/LF, base58 that rejects the empty text |
| `bufio.Scanner`, `strings`, `bytes`, `regexp` of the armor code | modelled concretely (`Search.v`, `Text.v`, `Armor.v`), 64 KiB line limit included |
| `tidwall/gjson`, `sjson`, `pretty` | assumed as described at the top of `Json.v` (trees of members in order, first duplicate wins, `pretty` = sort members, then render; the renderer is a parameter) |
| file system | map from cleaned paths to contents; `filepath.Join/Clean` modelled concretely; `os.WriteFile` = truncate, then prefixes of the data (C53); glob, stat, walk are parameters (C45) |
| float64 arithmetic of the password estimate | parameter, laws named in the theorem (C44) |
| user interaction, password callbacks | parameters (functions from the question to the answer) |

### What is modelled

`letter.go`, `letter-wire.go`, `letter-file.go`, `requirements.go`, `session.go`, `session-wire.go`,
`core.go`, `core-wire.go`, `helper.go` (key derivation, managed hashers), `envelope.go`, `signet.go`,
`import_export.go`, `password.go`, `suite.go`, `suites.go`, `truststore.go`, `truststores/dir.go`,
`truststores/io.go`, `truststores/keyring.go`, `tools/*.go` (registry, tool IDs, options) and `tools/{ecdh,gostdlib,blake3}` as far
as keys, levels, setup and reset are concerned, `hashtools/*.go` (registry), `lhash/*.go`,
`filesig/*.go`, `supply/supply.go`, `random.go`, `cmd/cmd-verify.go`, `cmd/cmd-sign.go`, `cmd/format_sig.go`, `cmd/cmd-import-export.go`, `cmd/cmd-open.go`, `cmd/cmd-close.go`,
`cmd/cmd-checksum.go`, `cmd/cmd-configure.go`, `cmd/cmd-manage.go`, `cmd/cmd-generate.go`, `cmd/cfg-envelope.go`, `cmd/cfg-signet.go`, `cmd/main.go`, `cmd/password.go`, `cmd/format.go`, `cmd/cmd-list.go` and `defaults.go` (as far as stated at the top of the model files).

### What is not modelled

* Confidentiality and unforgeability as cryptographic (probabilistic) notions: the theorems say what
  was encrypted/authenticated with which key, never that an adversary cannot compute something.
* Side channels, timing, memory wiping (`Burn`/`BurnKey` return nil or overwrite; C27 only covers what
  is written into exports).
* Data races on a single `Session`/`WireSession` (they are documented as not safe for concurrent use).
* What the terminal shows beyond tables and the menus of C76 (menus are replaced by arbitrary answers, C62), the
  service behind the lookup of leaked passwords (its response is a parameter, C68), the OS keyring itself (its accesses are abstract and may fail, C61).
* Self-checks (`selfcheck`), tests, scripts.

## Plan per property

Model file(s) → proof idea.  The theorem names are in `MANIFEST.json`.

| id | model | how it is proved |
|----|-------|------------------|
| C01, C02 | `Letter`, `Container` | each encoder is inverted by its decoder; the parser consumes every byte, so a proper prefix fails; letters with more than 255 seals are the refuted case |
| C03 | `Letter` over an abstract header codec | inversion; the error path loses the data (witness) |
| C04, C05, C06 | `Letter` (associated data, signed data) | the tagged fields are read back: injectivity up to the fields left out; explicit collisions; ApplyKeys is only looked at in one handshake state, so two runs agree elsewhere (`ApplyFlag`), and a run with a flipped flag where it matters |
| C07, C08, C22, C47 | `Session`, `Requirements`, `Tools` | invariant over the tool loop of `newSession`; exact success condition (`SessionComplete`); sweep over the registered suites |
| C09 | `Core`, `Envelope` | closing and opening are functions of the established keys (`CoreTrip`), both sides establish the same keys (`CoreMaterial`, `CoreKeys`) |
| C10, C11 | `Core`, `Envelope` | inversion of a successful `Open`/`Verify` (`CoreOpen`) |
| C12 | `Core`, `Envelope` with explicit panics | no-panic by induction over the loops (`CorePanic`), witnesses for the panics |
| C13 | `Letter`, `Envelope` | inversion |
| C14 | `Core` state | two runs from states that agree on what matters give the same results (`CoreRel`, `CoreState`) |
| C15, C16 | `Core` (buffers) | aliasing is explicit in the result; exact conditions; `PropInPlace` follows the buffer through Open for every outcome |
| C17 | `Core` | induction over the establishment loops; witness for a duplicated tool |
| C18 | `Envelope` | induction over `prepSignets` |
| C19, C20, C21 | `Core` wire operations, `SpecWire` | invariant of both parties and both channels over all schedules (`WireRun`), liveness (`WireLive`); damaged letters (`noisy` histories): opening before the authentication does not look at the data, and what comes after it does not touch the wire state (`WireHurt`, `PropWireHurt`) |
| C23 | `Core` key derivation | offsets of a reader; totality |
| C24, C25 | `Requirements`, `ReqText` | set reasoning, parser inversion; the names differ in their first letter, so the text is read from the left (`PropReqText`) |
| C26 | `KeyStore` | codec inversion per scheme |
| C27, C28, C29, C46 | `Signets`, `CmdKeys` | the exported bytes are a function of public parts only; inversion of texts |
| C30 | `Tools` | case analysis |
| C31, C32, C33, C50, C52, C53 | `TrustStore` | refinement of a map over all histories; paths stay inside the directory; prefixes of a write |
| C34, C35, C36 | `Lhash`, `Encodings` | codec inversion |
| C37, C38, C39 | `Armor`, `FileSig` | line based parsing lemmas; inversion of verification |
| C40, C41 | `Text` | reference checksum in `SpecText`; the writer's output is split into what was written |
| C42, C43, C51 | `Supply` | refinement of a bounded queue; invariant over all interleavings; a decreasing measure |
| C44 | `Password` | exact acceptance condition; monotonicity from float laws |
| C45 | `Report`, `Cmd` | exact meaning of exit status 0, witnesses for each exception |
| C48 | `Tools` | exact reading rule; sweep over the registry |
| C49 | `Json` | permutation reasoning on members; inversion |
| C54 | `Envelope`, `Core` | the closed letter's seals name the writer's signets in order (`Post`), so the reader's `prepSignets` finds the counterparts and C09 applies; witnesses for each condition |
| C55, C56 | `FileSig`, `Json`, `Armor` | C54 composed with the file and JSON round trips (C37–C39, C49) |
| C57, C58, C59 | `CmdFiles` | a run is its list of events (questions, creations, appended bytes, prints); the file system is folded over any prefix of it, so every crash point is covered; C54 and C40/C41/C49 composed |
| C60 | `Core`, `CoreWire` | the conversation relation with a log of letters; an invariant relates the log to ghost links (nonce, material, chain key) of both directions, by induction over the run |
| C61 | `Keyring` | the keyring as a shared association list with a fault per access; refinement to one pair of maps per store name, by induction over the history |
| C62 | `Wizard`, `SpecWizard`, `WizardFacts`, `WizardLevel` | the menus as a function of a list of arbitrary answers on the directory store; invariant of the envelope being edited (its lists are references or what the store holds), by induction over the answers; a session made again from the saved references has the same level; everything picked in a menu is a stored signet or envelope with a matching tool (`C62_known`) |
| C63 | `Wizard`, `SpecWizard`, `PropManage` | the two menus of manage over arbitrary answers; words of a menu row; induction over the answers; envelopes via the editor of C62 |
| C64 | `Generate`, `SpecGenerate`, `PropGenerate` | the command as a function of flags, answers, random bytes, generated pairs and failing writes; case analysis over the schemes with the lemmas of C26-C28, C30, C33 |
| C65 | `CmdSign`, `FileSig`, `Report` | events and prefixes as for C57; the text and the receipt come from the models of SignFile (C55) and of the report (C66); composed with C55 and C66 for sign-then-verify |
| C66 | `Report`, `Cmd` | the report as lines (`SpecReport`); uniqueness of a list sorted by key; signers genuine by inversion of opening (C10) |
| C67 | `Main` | flags and environment as data, the commands of C45, C57, C58, C65 run with what they select; the level by inversion of session creation (C08), the suite by inversion of opening (C10) |
| C68 | `CmdPassword`, `Password`, `Text` | answers and responses as data, traces of what leaves the program; lines as in C40, levels as in C44 |
| C69 | `Core` Close, `SpecWorking`, `SpecClose`, `SpecPost` | every step of the key material, the key derivation and the signatures succeeds (`WireLive.close_tail_live`); composed with C14 and C54 |
| C70 | `Generate`, `CmdKeys`, `Envelope`, `Core`; `SpecMail` joins the key formats of `KeyStore` with the keys of `Crypto` | composition of C64, C46, C47 and C69; a whole run from empty stores as witness |
| C71 | `Core`, `Envelope`; `SpecReaders` says what an opener gets its key material from | inversion of the opening loops (the dual of C17), then of PrepareSignets; a letter for two as counterexample to 'any recipient' |
| C72 | `Shared`: PrepareSignets and LoadKey as programs of atomic accesses to shared signets, a scheduler; `SpecShared` | rely/guarantee: every signet is untouched, half or fully loaded and only moves on; each goroutine is safe under any such moves; `SharedVerify` shows that new sessions and Verify do not look at private keys. The memory is sequentially consistent; no stores or deletes meanwhile |
| C73 | `Mutex`: methods as programs of atomic accesses between Lock and Unlock, a scheduler, histories of calls and returns; `SpecLinear` | the order of the Unlocks (`LinearFacts`, one invariant for any object with one mutex); termination by a weight and the bodies; the methods alone refine the maps of C31 and C52; two stores for one directory: a run no order explains |
| C74 | the model of Close (`Core`); `SpecLeak`: letters with the same cover, conversations that differ in the data | Close is a part that does not look at the data or its buffer (`blind`) followed by the work on the data (`close_split`); the two runs of the work are compared step by step (`LeakFacts`); conversations by induction, with the relation of C14 for everything else |
| C75 | the tool states of `Core` (key and nonce slices, `setup`, `reset`); `SpecWipe`: blank tools | everything before `setup` leaves the tools alone (`still`), everything after it runs under the deferred reset; setup itself cannot fail for registered suites (`derived_total`); histories by induction |
| C76 | `Columns`: text/tabwriter's block-wise layout, ScanLines, the cells and tables; `SpecColumns`: rows filled up to column widths | the layout as an invariant over columns (`next_column`); lines are clean of separators, so splitting inverts joining; reading a line back with `fields`; what `jess list` says of an entry is specified cell by cell (`SpecColumnsMore`, `PropColumnsMore`); the menu of suites (`SuiteMenu`, `PropSuiteMenu`) and the menu for editing an envelope (`EditMenu`, `PropEditMenu`) |
| C77 | `Registry`: maps and lists under `Register`, sort.Sort as a relation; `SpecRegistry`: latest and earliest registration of a name | induction over histories; a sorted permutation with distinct keys is unique |
| C78 | `Core` wire operations, `SpecReplay` (chain keys, `descends`) over `after` histories of any requests | every operation keeps hashers and tools at rest and either keeps both chain keys or moves one by one derivation (`ReplayFacts`); what comes after the derivation authenticates (`CoreTrip`); loss and repetition by a run |
| C79 | `Random` (goroutines over the flag and the reader, one access per step, no lock), `SpecRandom` (histories of calls) | invariant over all reachable states: which reader may be stored, at which stage a call is; a second invariant once all setters have returned; the refutations by a run and by a reader of one byte at a time |
| C80 | `Core` wire operations | opening draws no randomness (`CoreState`), so the outcomes do not depend on it; induction over the letters; with answers in between (`ReplayMore`): opening a plain letter reads of the wire state only the receiving chain key, which closing leaves alone; where it ends by a run |

## Findings

Deviations from what a user would expect, each with a witness theorem in `Prop*.v` unless marked (note),
which means that it was noticed while modelling and is visible in the model but has no theorem of its own.

* Letters: more than 255 seals can be written but not read on the wire (C01); `ToFileFormat` loses the
  data of a letter when the header cannot be encoded (C03); the `ApplyKeys` flag is not authenticated (C05).
* Opening: a null seal in a JSON letter crashes the opener, and so does a session made for one letter that is given
  another letter with fewer seals (C12); `Open` decrypts in place, so a second
  `Open` of the same letter value fails (C15); signature-only suites alias the caller's buffer (C16);
  the same tool twice (under different spellings) leaves recipients unused (C07); with two key exchange tools
  an error while making a seal is lost (C17); callbacks for new
  passwords can be asked while opening (C18); the same closing session's `Open` panics (note); letters
  whose seals have empty IDs cannot be opened (note); a key and a password together, or a lowered security level,
  give letters nobody can open (C54);
  file and JSON signatures made with an encrypting suite never verify (C55, C56); a `Close` with `Version` other than 1 gives a letter nobody opens (note).
* Sessions: garbage can desynchronise or kill a wire session (C21); after the handshake wire sessions never
  re-key (C20); a signing tool counts as a key source, a key with no bytes has level 0 (notes).
* Tools: BLAKE2s-256 is labelled as BLAKE2b-256 (C47); tool IDs have many spellings (C48).
* Registries: a tool registered twice is listed twice (C77).
* Stores: `MemTrustStore.SelectSignets` returns nothing once any stored signet has another scheme (C32);
  one damaged file takes down all listings (C50); `StoreEnvelope` writes keys (C29); a crash while storing
  leaves a damaged file (C53); the keyring store takes symmetric keys and passwords but never gives them back, reports
  failures as "not found" and strips the caller's envelope (C61).
* Wizards: `configure "x "` replaces the envelope "x"; saving an envelope that carried keys drops them (C62);
  `manage` deletes the recipient when the private signet of the same ID is chosen, and takes an ID or name with a space for another (C63); a line feed in a signet's name forges menu entries, also of the menu for editing an envelope (C76);
  `generate` panics for a negative `--symkeysize` and makes a 256 bit RSA key for levels above 256 (C64).
* Export: the long form of a signet without `Info` panics; protected signets cannot be imported; symmetric keys
  cannot be imported (C28); the backup command never works (C46).
* Files: a comment-only file, a stale checksum or a hidden metadata line make add-then-verify fail (C40); JSON duplicate
  metadata keys do the same (C49); an open BEGIN line swallows an added signature (C38); stdin is hashed empty from
  the second signature on (C39); an unknown placement returns an empty file (C40).
* Supply: `Fill` with a huge amount overflows (C42); concurrent first calls orphan a cache (C43).
* Passwords: very long passwords overflow to a negative level and are refused; characters outside ASCII are not held
  to the repetition rules (C44); the lookup of leaked passwords ignores the status of the response and logs the rest of the hash,
  and the prompt always counts 20000 iterations, whatever the tool (C68).
* Flags: `--no` makes `verify` ask for more, `-s` also lowers levels, export/backup/import crash without a trust store (C67).
* verify command: declining a big file, shadowed letters and patterns without matches all end in status 0; a
  signer without `Info` crashes it (C45); with three or more signatures the report says nothing about them, and line breaks in
  metadata forge lines of it (C66).
* sign command: an interrupted run loses the earlier signatures, `-o -` writes a file named `-`, `-o FILE FILE` overwrites the
  signed file without asking, and "Verification: OK" is printed although nothing was verified (C65).
* open/close/checksum commands: declining ends in status 0; an overwritten file keeps its mode, so plaintext may be readable for
  everyone; an interrupted run loses the overwritten file (C57, C59); `jess close -` writes a file named `-.letter` (C58).
* (notes) `lhash.DigestFile` never closes the file; `warnFileSize` is 12 MB where the comment says 120 MB;
  `GenerateSignet` ignores the security level, so RSA keys always have 3072 bits.
