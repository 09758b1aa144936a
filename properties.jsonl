{"id": "C01", "title": "Wire format round trip", "statement": "Parsing with LetterFromWireData what ToWire produced returns a letter with the same version, nonce, seal keys, ApplyKeys flag, data and MAC (and the suite ID whenever a version is set) and no signatures; nothing is reordered, truncated or merged, and bytes that follow are left alone. This holds for every letter with at most 255 seals; ToWire also succeeds for more, but then no receiver can read the letter.", "quantifier": "every letter (any number and content of keys, any nonce, data, MAC, version byte and suite ID)", "why_tests_cant": "letters are unbounded byte structures; tests exercise a handful of letters with one or two keys and never the 256th key, where the key-count field changes width", "anchors": ["core-wire.go", "letter-wire.go:Letter.ToWire", "letter-wire.go:LetterFromWire"]}
{"id": "C02", "title": "Truncated wire letters are rejected", "statement": "No strict prefix of a wire-encoded letter is accepted by LetterFromWireData as a complete letter with the same header.", "quantifier": "every letter and every strict prefix of its encoding", "why_tests_cant": "needs every cut position of every message", "anchors": ["letter-wire.go:LetterFromWire"]}
{"id": "C03", "title": "File format round trip", "statement": "LetterFromFileFormat of ToFileFormat gives back the same letter, and when ToFileFormat succeeds it leaves the letter it was called on exactly as it was; when it fails, the letter has lost its data.", "quantifier": "every letter and every error the header serialiser may return", "why_tests_cant": "the error paths temporarily take the data out of the letter; a test has to hit the failing serialiser to see the data lost", "anchors": ["letter-file.go:Letter.ToFileFormat", "letter-file.go:LetterFromFileFormat"]}
{"id": "C04", "title": "Associated data binds the header", "statement": "The bytes that are authenticated along with the data determine the letter version, suite, nonce and the complete list of seals, for letters with at most 16 seals or without empty seal values. Beyond that two different lists of seals can have the same associated data.", "quantifier": "every pair of letters", "why_tests_cant": "a collision search over all header pairs is impossible to sample; the collision needs a particular number of keys", "anchors": ["letter.go:Letter.compileAssociatedData", "letter.go:Seal.compileAssociatedData"]}
{"id": "C05", "title": "The ApplyKeys flag is not authenticated", "statement": "Whatever the letter, its ApplyKeys flag can be flipped on the way without changing anything that a signature, MAC or cipher authenticates, and the receiver acts on the flipped flag - contrary to what the documentation of Letter promises for the header. Outside of wire sessions, and in wire sessions that do not wait for new keys to be applied, opening (and verifying always) gives the same outcome and state whatever the flag is. A wire session that does wait is ended by a flipped flag: the letter is refused and so is the genuine letter after it, while after a letter with damaged data the next one opens.", "quantifier": "every letter", "why_tests_cant": "relates two arbitrary letters differing in one field", "anchors": ["letter.go:Letter", "letter.go:Letter.compileAssociatedData", "core-wire.go"]}
{"id": "C06", "title": "What a signature or MAC determines", "statement": "The byte string handed to signing and MAC tools determines data, header and MAC among letters with data of the same length. It does not determine where the data ends: for every content and nonce there is a signed letter whose signature is also valid for that other content.", "quantifier": "every pair of letters", "why_tests_cant": "requires reasoning over all splits of a concatenation", "anchors": ["core.go:Session.Close", "letter.go:Letter.compileAssociatedData"]}
{"id": "C07", "title": "A correspondence only opens when its suite delivers the required guarantees", "statement": "Envelope.Correspondence succeeds only if the suite's tools deliver every requirement the suite declares; confidentiality implies integrity, recipient authentication implies confidentiality; a key derivation tool is present exactly when keys are needed; no tool ID occurs twice. If no tool occurs twice under different spellings, every recipient, secret and sender is served by a tool; otherwise a recipient can go unused.", "quantifier": "every envelope, suite (any list of tools), registry and signet set", "why_tests_cant": "tests check the fixed registered suites; the guarantee is about every combination of tools", "anchors": ["session.go:newSession", "requirements.go", "suite.go"]}
{"id": "C08", "title": "Security level floor", "statement": "When a session is created, every tool, hash and signet that has a security level is at or above the effective minimum (process-wide minimum if set, else the envelope's, else 128 bits), and the reported security level is the minimum over all of them; the nonce size follows from the maximum. A shared key without content has no level and is let through, although it protects nothing.", "quantifier": "every envelope, suite and signet set", "why_tests_cant": "min/max over unbounded lists and three sources of the floor", "anchors": ["session.go:newSession", "session.go:Session.checkSecurityLevel", "session.go:Session.calcAndCheckSecurityLevel", "defaults.go"]}
{"id": "C09", "title": "Close then Open returns the original data", "statement": "If a sender closes data into a letter with an envelope and a recipient opens that letter with a matching session holding the private keys, the recipient gets exactly the original data.", "quantifier": "every suite accepted by session creation with distinct tools, every number of recipients/senders/secrets, every data, every random outcome", "why_tests_cant": "tests permute the tools over single recipients with one plaintext", "anchors": ["core.go:Session.Close", "core.go:Session.Open", "letter.go:Letter.Open"]}
{"id": "C10", "title": "Integrity: an accepted letter is the one that was sealed", "statement": "If Open returns data for a letter under a suite that promises integrity, then the pair (data, authenticated header) was accepted by every integrity tool of the suite; hence any letter that opens to something else than what the key holder produced exhibits a forgery of one of the tools.", "quantifier": "every letter an attacker may submit", "why_tests_cant": "quantifies over all attacker-chosen letters", "anchors": ["core.go:Session.Open"]}
{"id": "C11", "title": "Signatures are verified against the trust store for every sender", "statement": "Open and Verify succeed under a suite that signs only if at least one signature is present and each listed signature verifies under the key the trust store holds for the named signer.", "quantifier": "every letter, trust store and signing suite", "why_tests_cant": "adversarial letters: empty, duplicated, reordered or unknown signature entries", "anchors": ["core.go:Session.Open", "core.go:Session.Verify", "letter.go:Letter.Verify", "envelope.go:Envelope.prepSignets"]}
{"id": "C12", "title": "Which untrusted letters can crash the opener", "statement": "Opening or verifying a letter received from anywhere (Letter.Open, Letter.Verify) returns data or an error and never crashes, whatever its contents, as long as its lists of keys and signatures have no null entries. A null entry crashes the process, and so does a session made for one letter when it is given another letter with fewer seals.", "quantifier": "every letter value that can be parsed from a file or the wire, and every envelope", "why_tests_cant": "a crash needs a particular malformed shape", "anchors": ["core.go:Session.Open", "letter.go:Letter.Envelope", "letter.go:Letter.Open"]}
{"id": "C13", "title": "Unknown versions and suites are rejected", "statement": "Letter.Open, Letter.Verify and sessions that are not wire sessions reject every letter with an unsupported version; a letter with an unregistered suite or without suite is rejected always, also when setting up a wire session. Wire sessions do not check the version.", "quantifier": "every letter", "why_tests_cant": "all version bytes and suite names", "anchors": ["core.go:Session.Open", "letter.go:Letter.Envelope", "session.go:newSession"]}
{"id": "C14", "title": "Sessions carry no state from one letter to the next", "statement": "The result of closing or opening a letter in a non-wire session does not depend on what the session closed or opened before, including operations that failed half way.", "quantifier": "every history of operations on one session", "why_tests_cant": "histories are unbounded and include error paths", "anchors": ["core.go", "session.go:managedHasher"]}
{"id": "C15", "title": "When opening a letter leaves it intact", "statement": "Verifying a letter never changes it. Opening does not change it if the suite has no cipher or if a signature is bad, and a letter that was not changed can be opened again with the same result. Decryption works in place: after a successful Open the letter's data begins with the plaintext, and for the registered suites it is the plaintext followed by what is left of the ciphertext; a failed attempt leaves the letter as it was or, if the authentication of an encrypting suite failed, wipes everything but the tag. So an opened letter may not open again, and an attempt with a wrong key can make the letter unreadable for the right one.", "quantifier": "every letter, suite, session, session state and outcome", "why_tests_cant": "tests open each letter once", "anchors": ["core.go:Session.Open", "tools/gostdlib/aes-gcm.go", "tools/gostdlib/chacha20-poly1305.go", "tools/gostdlib/aes-ctr.go"]}
{"id": "C16", "title": "When closing leaves the caller's data intact", "statement": "Close leaves the data buffer passed in by the caller unmodified for all registered suites, for suites without stream ciphers, and for buffers with spare capacity; a suite with a stream cipher overwrites a buffer without spare capacity.", "quantifier": "every suite, data and buffer capacity", "why_tests_cant": "depends on the spare capacity of the slice", "anchors": ["core.go:Session.Close", "session.go"]}
{"id": "C17", "title": "Nobody is silently left out", "statement": "When Close succeeds, the letter carries a key for each recipient, every secret has been used in the key and every sender has signed, for suites with distinct tools and at most one key exchange and one encapsulation tool (all registered suites). With two key exchange tools an error of the first is lost and its recipient is left out although Close succeeds.", "quantifier": "every envelope and every failure pattern of the tools", "why_tests_cant": "failure of an early tool followed by success of a later one", "anchors": ["core.go:Session.setupClosingKeyMaterial", "core.go:Session.setupOpeningKeyMaterial", "session.go:newSession"]}
{"id": "C18", "title": "Password callbacks are asked the right question", "statement": "While closing, missing passwords are requested with the create callback; while opening, with the get callback, each exactly once and in order - provided no signet of the group asked for before it needs its key from the trust store. If one does, the opener is asked to create a password.", "quantifier": "every envelope (any order and kind of secrets)", "why_tests_cant": "depends on the order of mixed secrets", "anchors": ["envelope.go:Envelope.prepSignets", "envelope.go:Envelope.LoadPasswords"]}
{"id": "C19", "title": "Wire sessions agree in both directions", "statement": "After the first client message arrives, client and server derive matching keys for each message in each direction: each letter delivered in order opens to exactly what was sent. While the primitives work, both sides can always send.", "quantifier": "every interleaving of sends and FIFO deliveries, of any length", "why_tests_cant": "unbounded schedules of two communicating parties", "anchors": ["session-wire.go", "core-wire.go"]}
{"id": "C20", "title": "Wire sessions never re-key", "statement": "Only the first letter of each direction of a wire session carries new keys: however many letters are exchanged, key material is never renewed, although the reported configuration promises re-keying after a number of messages.", "quantifier": "every schedule", "why_tests_cant": "needs very long histories (thousands of messages)", "anchors": ["session-wire.go:WireSession", "session-wire.go:reKeyNeeded"]}
{"id": "C21", "title": "What garbage and damage do to a wire session", "statement": "A letter without nonce and keys is rejected by both sides of an established wire session without affecting the letters that follow. A letter that is damaged on the way in its data, mac, signatures, version or suite, but arrives with its nonce, keys and apply flag, only loses itself: over any history in which any number of letters of either side is damaged like this, every letter that arrives undamaged in order opens to the data it was closed with. A forged letter with a nonce of its own, however, can be rejected and yet move the key chain on, so that the genuine letter that follows is no longer readable.", "quantifier": "every wire session history with any interleaving of sends, deliveries and damaged deliveries; every damaged or rejected letter", "why_tests_cant": "any history, any pattern of damage, any forged letter", "anchors": ["core.go:Session.Open", "session-wire.go"]}
{"id": "C22", "title": "Wire sessions are only created with full protection", "statement": "Envelope.WireCorrespondence (client) and Letter.WireCorrespondence (server, with the suite the first letter names) return a session only for suites that provide confidentiality, integrity and recipient authentication, have a key exchange or encapsulation tool and no password or signing tools, and only without shared keys.", "quantifier": "every suite, envelope, letter and trust store", "why_tests_cant": "all tool combinations", "anchors": ["envelope.go:Envelope.WireCorrespondence", "letter.go:Letter.WireCorrespondence", "session-wire.go:Session.initWireSession", "session.go:newSession"]}
{"id": "C23", "title": "Key derivation is reproducible and total on valid input", "statement": "Key derivation succeeds exactly when a nonce and some key material (the first piece not empty) are present; sender and receiver who feed the same material in the same order obtain the same keys in the same order, and consecutive keys do not overlap.", "quantifier": "all material lists, nonces and key sizes", "why_tests_cant": "all list shapes", "anchors": ["core.go:Session.setupClosingKeyMaterial", "tools/gostdlib/hkdf.go", "tools/blake3/kdf.go"]}
{"id": "C24", "title": "Requirements behave as sets", "statement": "Add, Remove, Has, Empty and CheckComplianceTo on Requirements behave as insertion, deletion, membership, emptiness and inclusion of sets, and no attribute is ever present twice. The error of CheckComplianceTo names exactly the missing ones of the four attributes, in the order in which they were required, and its text determines them; an unknown attribute that is missing causes an error that does not name it.", "quantifier": "all sequences of operations", "why_tests_cant": "unbounded operation sequences", "anchors": ["requirements.go"]}
{"id": "C25", "title": "Requirement specifications round trip", "statement": "ParseRequirementsFromNoSpec accepts exactly the strings over the four attribute letters C, I, R, S and yields all requirements except the named ones; parsing what SerializeToNoSpec produced gives back the same set. ShortString lists exactly the letters of the set, each once, in the order C, I, R, S.", "quantifier": "all requirement sets and all strings", "why_tests_cant": "all strings", "anchors": ["requirements.go:ParseRequirementsFromNoSpec", "requirements.go:Requirements.SerializeToNoSpec", "requirements.go:Requirements.ShortString"]}
{"id": "C26", "title": "Signet keys survive storage", "statement": "For every asymmetric scheme (X25519, the four NIST curves, Ed25519, RSA): storing a generated key pair and loading it again gives the same pair; storing and loading the public part gives the same public key and nothing usable as a private key; different pairs are stored differently; for X25519 and Ed25519 exactly the well-formed byte strings are accepted; no byte string makes loading crash.", "quantifier": "all key pairs and all byte strings", "why_tests_cant": "all byte strings", "anchors": ["tools/ecdh/x25519.go", "tools/ecdh/nist.go", "tools/gostdlib/ed25519.go"]}
{"id": "C27", "title": "Private keys never leave through public exports", "statement": "For an unprotected signet with a key pair, Export yields a text made from version, ID, scheme, info and public key only (the private key has no influence on it), and AsRecipient returns a signet without stored or private key; symmetric keys and passwords are never exported. Names and schemes appear in the text as their runs of letters and digits, in lower case, joined by dashes.", "quantifier": "all signets with a public/private pair", "why_tests_cant": "non-interference over all secrets", "anchors": ["import_export.go", "signet.go:Signet.AsRecipient", "envelope.go:Envelope.CleanSignets"]}
{"id": "C28", "title": "Text exports and backups can be imported again", "statement": "Importing the text form of a backup of an unprotected signet with a key pair gives a signet with the same data and the same key pair; importing an export gives its recipient with the same public key; importing an exported envelope gives the envelope with its signets reduced to references - for the short form, and for the long form if the signet has an Info. It fails otherwise: the long form of a signet without Info (as GenerateSignet makes it) panics, no text whatever is imported as a symmetric key although Backup prints one, and a protected signet cannot be imported.", "quantifier": "all signets (of every scheme, including symmetric keys) and envelopes", "why_tests_cant": "all schemes and contents", "anchors": ["import_export.go"]}
{"id": "C29", "title": "Stored envelopes contain no key material", "statement": "Exporting an envelope (and serialising it with ToBytes) writes only version, ID and scheme of each signet, never keys, passwords or infos, and depends on nothing else of the signets. The directory trust store does not clean: it writes an envelope's keys and passwords to disk.", "quantifier": "all envelopes", "why_tests_cant": "all envelopes", "anchors": ["envelope.go:Envelope.CleanSignets", "import_export.go", "truststores/dir.go:DirTrustStore.StoreEnvelope"]}
{"id": "C30", "title": "RSA keys are generated strong enough", "statement": "The RSA key size chosen for a security level is rated at that level or above if and only if the level is at most 256; a longer key is never rated lower, and above level 80 no shorter key would be rated high enough. Above 256 the size chosen is 256 bits, which is rated as broken.", "quantifier": "all security levels", "why_tests_cant": "all integers, incl. those outside the table", "anchors": ["tools/gostdlib/rsa-keys.go:getRSAKeySizeBySecurityLevel", "tools/gostdlib/rsa-keys.go:getSecurityLevelByRSAKeySize"]}
{"id": "C31", "title": "MemTrustStore behaves as a map", "statement": "For every sequence of calls the in-memory trust store answers as a map from ID and kind to signets: GetSignet returns exactly what the last StoreSignet for that ID and kind stored, or not-found if there was none or it was deleted; signet and recipient entries never interfere. Only the empty ID is refused.", "quantifier": "all operation sequences and IDs (any bytes)", "why_tests_cant": "key encoding collisions over all strings", "anchors": ["truststore.go"]}
{"id": "C32", "title": "What SelectSignets returns", "statement": "The directory store's SelectSignets returns exactly the stored signets of the requested kind and schemes, provided all signet files decode. The in-memory store's does so only if every stored signet has one of the requested schemes; if one has not, it returns nothing at all, whatever the iteration order.", "quantifier": "all store contents, filters and iteration orders", "why_tests_cant": "Go map iteration order is random", "anchors": ["truststore.go:MemTrustStore.SelectSignets", "truststores/dir.go"]}
{"id": "C33", "title": "DirTrustStore stays in its directory", "statement": "Whatever the signet ID or envelope name, a call of the directory store reads and changes only files directly inside the store's directory; distinct IDs, kinds and names use distinct files; IDs and names with characters that are not allowed are refused without touching a file.", "quantifier": "all IDs (any bytes)", "why_tests_cant": "all strings", "anchors": ["truststores/dir.go", "truststores/io.go"]}
{"id": "C34", "title": "Labeled hashes round trip", "statement": "lhash.Load(h.Bytes()) returns an equal hash; Load rejects unknown algorithms, wrong digest lengths and trailing data.", "quantifier": "all algorithms, digests and byte strings", "why_tests_cant": "all byte strings", "anchors": ["lhash/labeledhash.go:Load", "lhash/labeledhash.go:LabeledHash.Bytes"]}
{"id": "C35", "title": "Labeled hash text encodings round trip", "statement": "Hex, Base64 and Base58 text forms of a labeled hash are parsed back to the same hash by the corresponding From functions. Base64 text may be broken into lines anywhere, hex digits may have either case; any other character outside the alphabet is an error.", "quantifier": "all hashes", "why_tests_cant": "all byte strings", "anchors": ["lhash/labeledhash.go:FromHex", "lhash/labeledhash.go:FromBase64", "lhash/labeledhash.go:FromBase58"]}
{"id": "C36", "title": "Labeled hash comparison is exact", "statement": "Equal is true exactly for the same algorithm and digest; EqualRaw exactly for the same digest; Matches is true exactly when the data hashes to the digest.", "quantifier": "all hashes and data", "why_tests_cant": "all pairs", "anchors": ["lhash/labeledhash.go:LabeledHash.Equal", "lhash/labeledhash.go:LabeledHash.Matches"]}
{"id": "C37", "title": "Signature armor round trip", "statement": "ParseSigFile of a file with armored sections made by MakeSigFileSection yields exactly the letters in order.", "quantifier": "all letters and surrounding text without armor markers", "why_tests_cant": "all byte strings around the markers", "anchors": ["filesig/format_armor.go"]}
{"id": "C38", "title": "Adding a signature to a file keeps or replaces signatures as asked", "statement": "AddToSigFile keeps all other file content; with removeExistingJessSignatures only the new signature remains, else the new signature is added to the existing ones, which stay as they are - unless the rest of the file has a begin line without an end line: then the new signature is swallowed and cannot be read.", "quantifier": "all existing file contents", "why_tests_cant": "dangling markers", "anchors": ["filesig/format_armor.go:AddToSigFile"]}
{"id": "C39", "title": "File signature verification is sound", "statement": "VerifyFile reports success exactly if the signature file is readable, holds at least one signature, and every signature in it is a letter of a trusted sender that verifies for the trust store, names the expected metadata and matches the hash of the file. For data read from standard input (file name '-') only the first signature is compared with the data: for all others the data counts as empty.", "quantifier": "all files, signature files and trust stores", "why_tests_cant": "adversarial files", "anchors": ["filesig/main.go", "filesig/helpers.go"]}
{"id": "C40", "title": "Text checksum: add then verify", "statement": "AddTextFileChecksum succeeds exactly for data without over-long lines. For content to which the placement applies and whose first line does not look like metadata, the result has the same content, keeps all checksums and has the right new one, and VerifyTextFileChecksum accepts it exactly if the checksums that were there before were right. Without these conditions (only comments, stale checksum, hidden metadata line, unknown placement) adding succeeds but verifying fails, or the data is lost.", "quantifier": "all file contents, comment signs and placements", "why_tests_cant": "all byte strings", "anchors": ["filesig/text.go"]}
{"id": "C41", "title": "Text checksum: verification is sound", "statement": "If verification succeeds the file holds at least one checksum and all checksums match the content; content changes (other than whitespace/metadata lines) go with a digest collision.", "quantifier": "all file contents", "why_tests_cant": "all byte strings", "anchors": ["filesig/text.go:VerifyTextFileChecksum", "filesig/text.go:textSplit"]}
{"id": "C42", "title": "Signet supply hands out each signet once, in order", "statement": "For one key scheme, any sequence of get and fill calls on the supply has exactly the responses of a bounded first-in first-out queue (capacity = cache size, at least 1): every successfully generated signet is handed out once and in order of generation, or is still held, and no more than the capacity is held - provided amount + capacity fits a Go int (with a larger amount the sum overflows and nothing is filled).", "quantifier": "all capacities and operation sequences", "why_tests_cant": "unbounded sequences, wrap-around", "anchors": ["supply/supply.go"]}
{"id": "C43", "title": "Concurrent use of the supply never hands out a signet twice", "statement": "Under every interleaving of any number of concurrent GetSignet and Fill calls (any schemes, any generation failures) no signet is returned by two calls, and a returned signet is never still held in a buffer. (Signets can be lost, though: two concurrent first calls for a scheme each save a buffer and the one saved first is dropped with what it was filled with.)", "quantifier": "all interleavings", "why_tests_cant": "all schedules", "anchors": ["supply/supply.go:SignetSupply"]}
{"id": "C44", "title": "What passwords are accepted", "statement": "The level of a password is -1 if one printable ASCII character makes up a quarter of it or more, or if its distinct printable characters are used four times or more on average; otherwise it depends only on the length and on the groups of characters used. A password is accepted exactly if it is typed twice the same and its level reaches the minimum, so one that breaks a rule never is. Of two passwords that keep the rules and use the same groups the longer is not weaker as long as the floating point estimate is finite; from 2^1024 combinations on it is not, and the password is refused. Characters outside of printable ASCII are not held to the rules.", "quantifier": "all passwords and settings", "why_tests_cant": "numeric overflow for long passwords", "anchors": ["password.go", "cmd/password.go"]}
{"id": "C45", "title": "What a successful verify command means", "statement": "If the verify command exits with success, every file its patterns match and every .sig and .letter file in the directories it walks was verified and found genuine, all patterns are well-formed, everything could be read and a single pattern matches something - with three exceptions: a letter whose loading the user declined, a letter whose own .sig file was verified before it, and a pattern among several that matches nothing. '[ OK ]' is printed only for files that were verified or declined. Conversely the command exits with success if every file passes and the trust store has no signer of it without signet information; such a signer crashes the command. A data file called '-' (standard input) cannot be verified at all.", "quantifier": "all file sets and outcomes", "why_tests_cant": "all outcome combinations", "anchors": ["cmd/cmd-verify.go"]}
{"id": "C46", "title": "Moving keys between trust stores with export, import and backup", "statement": "What the export command prints for a recipient, a signet or an envelope, the import command stores in another directory trust store under the same name, as recipient, public part and envelope without secrets respectively, and it leaves all other entries as they were. The text of a backup is imported with its key pair. Export never prints private keys, and of keys and passwords only IDs. The backup command itself never prints a backup: it reports an error if the signet exists and crashes if it does not.", "quantifier": "all trust stores and IDs", "why_tests_cant": "control flow over all store outcomes", "anchors": ["cmd/cmd-import-export.go:handleBackup"]}
{"id": "C47", "title": "Registered suites are well formed", "statement": "Each registered recommended suite has distinct tools from the registry and can open a correspondence that delivers exactly the declared guarantees at its declared security level. No registered tool or hash claims more security than the size of its key or half of its digest.", "quantifier": "all registered suites", "why_tests_cant": "all suites times all requirement subsets", "anchors": ["suites.go", "suites_v1.go", "suites_v2.go", "tools"]}
{"id": "C48", "title": "Reading of tool IDs", "statement": "A tool ID is read by one exact rule: the name is what precedes the first '(', the argument is what follows it up to the next '(', without ')' at its ends. It resolves exactly if the named tool exists and the argument names a hash tool where the tool takes one. All documented forms (Name and Name(Hash)) are read as documented, and no string makes the reader crash. Other spellings of the same tool are accepted as well, so that a suite may contain one tool twice although duplicate IDs are refused.", "quantifier": "all strings", "why_tests_cant": "all strings", "anchors": ["tools/tools.go:Get", "session.go:newSession", "hashtools/tools.go:Get"]}
{"id": "C49", "title": "JSON checksums: adding and verifying", "statement": "For documents without duplicate keys: VerifyJSONChecksum succeeds exactly if the document has checksums and all of them match the content without the checksum and signature fields; AddJSONChecksum keeps content, checksums and signatures, adds the right checksum, and its output verifies exactly if the checksums that were there before matched. The order of the fields does not matter. The same holds for signatures.", "quantifier": "all JSON objects", "why_tests_cant": "all JSON values", "anchors": ["filesig/json.go"]}
{"id": "C50", "title": "A damaged entry takes down the listings of the directory store", "statement": "The directory store lists signets (envelopes) exactly if all signet (envelope) files under its directory decode and all envelopes name a known suite; one file that does not makes the whole listing fail, whatever its place in the order - and StoreEnvelope writes such a file for an envelope with an unknown suite.", "quantifier": "all directory contents", "why_tests_cant": "all subsets of damaged files", "anchors": ["truststores/dir.go"]}
{"id": "C51", "title": "Concurrent supply calls always return", "statement": "Under every interleaving, as long as some GetSignet or Fill call has not returned, some call already made can take a step, and without new calls there is no infinite sequence of steps: all calls return (no deadlock, no livelock).", "quantifier": "all numbers of calls, all interleavings, all generation failures", "why_tests_cant": "all schedules", "anchors": ["supply/supply.go:GetSignet", "supply/supply.go:Fill"]}
{"id": "C52", "title": "DirTrustStore behaves as a map", "statement": "Starting from a directory without entries, for every sequence of get, store and delete calls for signets and envelopes the directory store answers as a map from ID and kind to signets and from names to envelopes, where forbidden names are refused, deleting a missing entry is an error, and an envelope with an unknown suite can be stored but not be got. What is stored is the serialised signet: a generated key that was not stored in the signet with StoreKey is lost.", "quantifier": "all operation sequences, IDs and directories", "why_tests_cant": "unbounded histories and arbitrary IDs", "anchors": ["truststores/dir.go", "truststores/io.go"]}
{"id": "C53", "title": "Crash while storing a signet", "statement": "A crash at any point while the directory store writes a signet changes no other entry and no envelope. The entry itself is not protected: the old signet can be lost along with the new one, and then no signet can be listed.", "quantifier": "all file systems, signets and crash points (prefixes written)", "why_tests_cant": "crash points cannot be enumerated by tests", "anchors": ["truststores/io.go:WriteSignetToFile", "truststores/dir.go"]}
{"id": "C54", "title": "A letter reaches its reader", "statement": "What somebody closes with Envelope.Correspondence and Session.Close, somebody else with another trust store opens with Letter.Open, and Letter.Verify accepts it if it was signed - for every registered suite, all data, with or without the letter header being complete, directly or through the letter's file format - provided the reader's trust store has the recipients' private keys, the senders' public keys and the shared keys under the IDs the writer used, the user gives the same passwords, all parties have IDs, the envelope has version 1 and does not lower the security level, and the secrets are all keys or all passwords. With a key and a password together, or a lowered level, the letter closes but its reader cannot open it.", "quantifier": "all registered suites, data, envelopes, pairs of trust stores and password callbacks, random sources, requirement sets the suite provides", "why_tests_cant": "It is a statement about every combination of two trust stores, envelope and suite; tests use one store for both sides.", "anchors": ["letter.go: Letter.Envelope, Letter.Open, Letter.Verify", "envelope.go: Correspondence, PrepareSignets, prepSignets", "core.go: Session.Close, Session.Open", "letter-file.go"]}
{"id": "C55", "title": "A signed file verifies for others", "statement": "What SignFile signs with one trust store, VerifyFile verifies with another that has the signers' public keys, returning exactly the file data that was signed; every metadata entry given to SignFile may be required. SignFile stores the digest of the content with the hash algorithm that the suite names, keeps the other text of an existing signature file, and refuses to replace one it cannot read. This holds for suites that do not encrypt and if the remaining text has no begin line; with an encrypting suite SignFile succeeds but the file never verifies.", "quantifier": "all file contents, metadata, signature files, envelopes with registered suites, pairs of trust stores, codecs that return what they wrote", "why_tests_cant": "It ranges over all contents, metadata maps, signature files and pairs of trust stores.", "anchors": ["filesig/helpers.go: SignFile, VerifyFile", "filesig/main.go: SignFileData, VerifyFileData", "filesig/format_armor.go"]}
{"id": "C56", "title": "A signed JSON document verifies for others", "statement": "After AddJSONSignature with one trust store, VerifyJSONSignature with another that has the signers' public keys accepts the document exactly if it had no signatures before or was accepted before - for suites that do not encrypt and documents without duplicate keys. With an encrypting suite signing succeeds, but nobody can verify the signature.", "quantifier": "all JSON objects without duplicate keys, envelopes with registered suites, pairs of trust stores", "why_tests_cant": "It ranges over all documents, existing signatures and pairs of trust stores.", "anchors": ["filesig/json.go: AddJSONSignature, VerifyJSONSignature"]}
{"id": "C57", "title": "jess open writes authenticated plaintext only", "statement": "At every point of a run of `jess open`, also if it is killed or the disk is full, either nothing was printed and no file changed, or exactly one thing was written: a prefix of the plaintext of the letter in the input, which opened with the requirements, to the output (the -o name, or the input name without .letter, or stdout for -), and the user agreed to load a big input and to overwrite an existing output. Exit status 0 means that all of the plaintext was written, or that the user declined. New output files are accessible for their owner only; an overwritten file keeps its mode; an interrupted run leaves a truncated output.", "quantifier": "all file systems (including links, hidden and unreadable files, full disks), arguments, flags, letters, trust stores, answers of the user, points of interruption", "why_tests_cant": "It ranges over all file systems, answers and crash points.", "anchors": ["cmd/cmd-open.go: openCmd", "cmd/format_sig.go", "letter.go: LetterFromFileFormat", "envelope.go: Letter.Open"]}
{"id": "C58", "title": "jess close writes the letter only, and jess open gives it back", "statement": "At every point of a run of `jess close`, also if it is killed or the disk is full, either nothing was printed and no file changed, or exactly a prefix of the letter made of the input with the named envelope was written to the output (the -o name, or the input name with .letter added), and the user agreed to load a big input and to overwrite an existing output. Exit status 0 means that the whole letter was written, or that the user declined. What `jess close` wrote for one user, `jess open` gives back to a user whose trust store has the keys. With `-` as input, the output is a file named `-.letter`, not stdout.", "quantifier": "all file systems, arguments, flags, envelopes with registered suites, pairs of trust stores, answers of the user, points of interruption", "why_tests_cant": "It ranges over all file systems, answers, envelopes, contents and crash points.", "anchors": ["cmd/cmd-close.go: closeCmd", "cmd/cmd-open.go: openCmd", "letter-file.go: ToFileFormat"]}
{"id": "C59", "title": "jess checksum touches the checksum of one file only", "statement": "`jess checksum verify` succeeds exactly if the named file (by its extension: .json, .yml, .yaml, .txt) has checksums and all of them match its content; it writes nothing. At every point of a run of `jess checksum add`, nothing but the named file changed, that keeps its mode and has a prefix of the new text (an interrupted run leaves it truncated); after a complete run the content of the file is the same and verifying succeeds if the checksums that it had before matched.", "quantifier": "all file systems, arguments, contents, points of interruption", "why_tests_cant": "It ranges over all contents, file systems and crash points.", "anchors": ["cmd/cmd-checksum.go: checksumAdd, checksumVerify", "filesig/text.go", "filesig/json.go"]}
{"id": "C60", "title": "Wire letters form a key chain, and the one-time keys are forgotten", "statement": "In every conversation of a wire session with its counterpart (Session.Close and Session.Open, in any interleaving of sends and in-order deliveries): the first letter carries a one-time key per recipient and is protected by the secrets between these and the recipients' keys. From then on everything that protects a letter is derived, with the letter's nonce, from the chain key the previous letter of the same direction left, and nothing else - except that once per direction new key material enters: the secrets between the one-time keys of the client and one-time keys of the server that the server's first letter carries. It enters with that letter and, in the other direction, with the first letter the client sends after it heard the server, and the flag ApplyKeys says so. Each session keeps exactly the chain keys the last letters left. The client forgets its one-time keys and the secrets made of them with the first letter it sends after it heard the server; the server when it gets that letter.", "quantifier": "all envelopes with a registered suite that allow wire sessions, counterpart envelopes, data, random values, and interleavings of sends and deliveries of any length", "why_tests_cant": "The chain is a property of the whole history of both sides; it must hold for every interleaving.", "anchors": ["core-wire.go: WireSession", "core.go: Session.Close, Session.Open, setupClosingKeyMaterial, setupOpeningKeyMaterial", "session-wire.go"]}
{"id": "C61", "title": "Keyring trust stores are separate maps, also when the keyring fails", "statement": "Every history of keyring trust stores (NewKeyringTrustStore, Get/Store/DeleteSignet, Get/Store/DeleteEnvelope, SelectSignets, AllEnvelopes) answers as one map of signets and one of envelopes per store name: stores with different names, signets and recipients, envelopes, the self-check entry and other programs' entries never interfere. An access that the keyring refuses changes nothing; one that fails after it was done is reported as an error; a failed read is reported as 'not found'. Asymmetric signets and recipients come back with their keys, envelopes without any key material. Exceptions: symmetric keys, passwords and protected signets can be stored but never read back; passwords without a value cannot be stored; StoreEnvelope strips the keys from the caller's envelope even if it fails; selection and listing are not supported.", "quantifier": "all histories of calls on any number of keyring stores, all outcomes of every keyring access, changes by other programs in between, all signets and envelopes", "why_tests_cant": "It ranges over all histories and all failures of the backend.", "anchors": ["truststores/keyring.go: KeyringTrustStore", "signet.go: ToBase58, SignetFromBase58", "envelope.go: ToBase58, EnvelopeFromBase58, CleanSignets"]}
{"id": "C62", "title": "jess configure changes only its envelope and saves only envelopes that work", "statement": "Whatever a user answers to the prompts of `jess configure NAME` on a directory trust store: no file but that of the one envelope worked on changes, and only if the command succeeds; an envelope is saved or printed only after a session could be made with its suite and signets, holds references only (no keys), and states that session's security level. In a store whose files hold the signets they are named after, the saved envelope is read back and starts a session with that level. Without 'Done' or 'Delete' nothing is written, and answers from the menus never crash the command. Exceptions: NAME with surrounding white space creates, and replaces, the envelope with the trimmed name; an envelope that carried keys the store does not have is saved without them and stops working. It refers only to signets the envelope already referred to (list by list) or that the store holds for that purpose: passwords and keys as secrets, private signing keys as senders, public key exchange keys as recipients.", "quantifier": "all names, sequences of answers, contents of the trust store, envelopes in it, and cryptographic primitives", "why_tests_cant": "It ranges over all sequences of menu answers and all store contents; the check is made on a state that earlier answers built up and that differs from what is saved.", "anchors": ["cmd/cmd-configure.go: configureCmd", "cmd/cfg-envelope.go: newEnvelope, editEnvelope, editEnvelopeSuite", "cmd/cfg-signet.go: selectSignets, pickSignet", "envelope.go: Correspondence, prepSignets, CleanSignets"]}
{"id": "C63", "title": "jess manage deletes and edits only what was chosen", "statement": "Whatever a user answers to the prompts of `jess manage` on a directory trust store: managing signets only deletes files of signets whose ID an answer ended with and that was followed by 'Delete'; managing envelopes only removes or rewrites files of envelopes an answer began with, never touches signets, and saves or prints only checked envelopes without keys (which work, in an orderly store). Choosing a listed signet with a one-word ID that no earlier entry has, and 'Delete', deletes exactly its file; another action changes nothing; 'Done' ends the command; choosing a listed envelope with a one-word name edits that envelope. Lines from the menus never crash the command, and it ends when the answers end. Exceptions: with a recipient and a private signet of the same ID, the first listed is deleted, whichever is chosen; IDs and names with spaces stand for another entry; a signet with ID 'Done' captures the entry 'Done', envelopes named 'Done...' cannot be chosen; files in subdirectories are listed but not the ones deleted.", "quantifier": "all sequences of answers, contents of the trust store, menu rows with any padding, orders of the directory walk", "why_tests_cant": "It ranges over all sequences of menu answers and all store contents.", "anchors": ["cmd/cmd-manage.go: manageSignets, manageEnvelopes", "cmd/cfg-signet.go: pickSignet", "cmd/cfg-envelope.go: editEnvelope", "cmd/format.go: formatColumns", "truststores/dir.go: DeleteSignet, AllEnvelopes, SelectSignets"]}
{"id": "C64", "title": "jess generate stores one consistent new signet, or nothing", "statement": "Whatever flags and answers `jess generate` gets on a directory trust store: if it succeeds, the store holds a signet with the asked name and scheme and a fresh random version 4 UUID as ID (accepted by the store, one word in menus, equal for two signets only if the random bits are equal); a password reference without a key, or a symmetric key of exactly --symkeysize random bytes, or the generated key pair as a private signet plus a recipient with the same ID and public key only, and nothing else in the store changed. If it fails, nothing changed, or only the private signet was stored because storing the recipient failed. With --textonly the store never changes and the printed texts import again as the pair and as its public key; passwords and keys are never printed. Unknown tools, tools without keys, RSA without --seclevel and keys without --symkeysize are refused without effect. It does not crash unless --symkeysize is negative (exception). An RSA key is rated at least --seclevel up to 256; above, a useless 256 bit key is made (exception).", "quantifier": "all flags, answers, random bytes, key pairs of the schemes, contents of the trust store, and failing writes", "why_tests_cant": "It ranges over all flag and answer combinations, all random bytes and every point at which storing can fail.", "anchors": ["cmd/cmd-generate.go: generateCmd", "cmd/cfg-signet.go: newSignet", "signet.go: GenerateKey, StoreKey, AsRecipient, AssignUUID", "import_export.go: Backup, Export", "tools/gostdlib/rsa-keys.go: GenerateKey", "truststores/dir.go: StoreSignet"]}
{"id": "C65", "title": "jess sign: what is written, printed and lost, at every crash point", "statement": "`jess sign FILE with ENVELOPE` writes one file: FILE.sig (an error if FILE already ends in .sig), or the file given with --output. At any point at which the command may stop, either nothing was changed or printed, or the signature file holds a first part of exactly the text filesig.SignFile makes for FILE and the previous text of that file, no other file is changed, and anything printed comes after all of it was written. A signature file that existed keeps its mode, a new one is 0644. Exit status 0 means that all of it was written; the receipt on stdout has the hash algorithm, the hash and the metadata of the file data that was signed. If nothing stands in the way, the command succeeds, and a reader with the senders' recipients then gets exit status 0 from `jess verify` on FILE or FILE.sig with any part of the metadata, with a report on exactly that file data. Exceptions, each a concrete run: interrupting the command loses the earlier signatures in the file; `-o -` does not print the signature but creates a file named \"-\"; `-o FILE FILE` overwrites the signed file without asking and still prints Verification: OK, though nothing was verified.", "quantifier": "all flags, arguments, file systems (links, permissions, full disks, failing closes), envelopes, trust stores, previous signature files, metadata, and all prefixes of the command's effects", "why_tests_cant": "There is one crash point per byte written, and the claim ranges over all file systems and previous signature files.", "anchors": ["cmd/cmd-sign.go: cmdSign", "filesig/helpers.go: SignFile", "filesig/format_armor.go: AddToSigFile", "cmd/format_sig.go: formatSignatures", "cmd/cmd-verify.go"]}
{"id": "C66", "title": "Reports of jess verify: what is said about signers, hashes and metadata", "statement": "The report `jess verify` prints for a file with one or two signatures has, for each signature, the signer lines, the hash and the metadata of exactly the file data whose signature was verified and whose hash is that of the file; the metadata is listed in the order of its keys and does not depend on the order in which Go walks the map. The report for a letter, and each OK line of a run over several files, names exactly the IDs of the signatures of that letter or of those signatures, with the name the trust store has for that ID. Each of these signatures is genuine: it verifies with the public key the trust store has for its ID, over the letter. Exceptions, each a concrete run: with three or more signatures the report says nothing about any of them; a line break in a metadata value (or signer name) forges lines of the report.", "quantifier": "all files, signature files, letters, trust stores, metadata maps and their iteration orders, requirements", "why_tests_cant": "Go's map order and the number and content of signatures and metadata are unbounded; genuineness is about every key and letter.", "anchors": ["cmd/format_sig.go: formatSignatures, formatSignature, sortByMetaDataKey", "cmd/cmd-verify.go: verify, verifySig, verifyLetter", "filesig/helpers.go: VerifyFile"]}
{"id": "C67", "title": "Global flags: the trust store, requirements and settings each command works with", "statement": "Every command works with the first trust store that is named, in this order: --tsdir, JESS_TS_DIR, JESS_TSDIR, --tskeyring, JESS_TS_KEYRING, JESS_TSKEYRING; the first one that is named and cannot be used is an error, and never replaced by a later one. close, configure, generate, manage, sign and verify refuse to run without one. The command starts whenever its flags can be used, and ends in an error without any effect when they cannot; looking at the flags never crashes. verify never asks for a password. --no removes exactly the named protections: what open (and verify, for letters) accepts comes from a suite that provides all others. With -s LEVEL (above zero) everything open, close, sign and verify accept or produce uses a suite of at least that level, and every tool, key and password in it that has a level at all has at least that level; above 128 none of them has any effect, as no suite of jess provides more. Exceptions, each a concrete run: giving --no makes verify ask for more than it does without; -s also lowers the level, even one an envelope asks for; export (like backup and import) crashes without a trust store.", "quantifier": "all flags, environments, file systems, keyrings, trust stores, envelopes, letters, users", "why_tests_cant": "The guarantee composes the flags with everything the commands do for all letters, envelopes and stores; tests try a few flags.", "anchors": ["cmd/main.go: initGlobalFlags, requireTrustStore", "defaults.go: SetMinimumSecurityLevel, SetDefaultKeySize", "requirements.go: ParseRequirementsFromNoSpec", "truststores/dir.go: NewDirTrustStore", "truststores/keyring.go: NewKeyringTrustStore"]}
{"id": "C68", "title": "Password prompt: which passwords are taken, and what the leak lookup gives away", "statement": "When a new password is asked for, the one taken is the first typed that reaches the requested level, typed twice in a row, and, if the user asked for the lookup, one whose list of leaked passwords was read to its end and does not mention it. Nothing leaves the program unless the user asked for the lookup; then exactly one request is made, with the first five digits of the SHA-1 of a password that reached the level, and at most one line is logged, which only happens when the password is refused. Only the key of the signet changes. A password the prompt accepts reaches the requested level in the session too, as long as the estimate does not overflow. Exceptions, each for all passwords: the status of the response is ignored, so an error page counts as a list without the password; the log together with the request holds the whole SHA-1 of a leaked password.", "quantifier": "all answers on the terminal, passwords, levels, hash functions, responses of the lookup service, monotone arithmetic", "why_tests_cant": "All passwords, all bodies (with line breaks, over-long lines, broken connections) and all sequences of answers.", "anchors": ["cmd/password.go: createPassword, getPassword, checkForWeakPassword, createPasswordInterface, getPasswordInterface", "password.go: CalculatePasswordSecurityLevel", "session.go: calcAndCheckSecurityLevel"]}
{"id": "C69", "title": "Closing does not fail", "statement": "With a suite of jess, a session whose secrets are not empty, whose recipients have public keys and whose senders have private keys closes every message, whatever it was asked before, as long as the primitives work; and a reader with the counterparts opens (and verifies) it, so from the envelope to the reader nothing can fail. A letter is never closed with an empty password, for a recipient without a public key or by a sender without a private key. Exception: such a sender is noticed by Close only, not when the session is opened.", "quantifier": "all registered suites, configurations, envelopes, trust stores, messages, histories and primitives in working order", "why_tests_cant": "Liveness for all combinations of suites, signets and histories; a test shows it for one.", "anchors": ["core.go: Close, setupClosingKeyMaterial, setup", "session.go: newSession", "letter.go: Letter.Open, Letter.Verify", "tools/gostdlib/hkdf.go"]}
{"id": "C70", "title": "From generate to open", "statement": "The text that `export` prints for a freshly generated key pair, imported elsewhere, gives that trust store the public half of the key whose private half stays with the owner, and changes nothing else there. Two users who have been introduced like this can write to each other: an envelope that only refers to such senders and recipients, as the suite asks for, opens a correspondence in the writer's trust store, closes every message, and the reader's trust store gives the data back and verifies the signatures. So from two empty trust stores to a signed and encrypted letter nothing fails.", "quantifier": "all trust stores, names, key pairs, random numbers (even equal UUIDs), registered suites without secrets, numbers of senders and recipients, messages and primitives in working order", "why_tests_cant": "A composition of four commands and two sessions over all stores, keys and suites; a test follows one pair of users.", "anchors": ["cmd/cmd-generate.go", "cmd/cfg-signet.go: newSignet", "cmd/cmd-import-export.go: handleExport, handleImport", "signet.go: StoreKey, LoadKey, AsRecipient", "envelope.go: PrepareSignets", "letter.go: Letter.Open, Letter.Verify", "core.go: Close"]}
{"id": "C71", "title": "Opening a letter takes the key of every party", "statement": "Open under a suite that encrypts gives data only to somebody who holds the key of every secret and of every recipient the letter names: each shared key and each recipient's private key from the trust store, each password from the user. The keys under which the letter is accepted are derived from what all of these keys make of the letter's seals. In particular a letter for several recipients is for all of them together: one of them alone cannot open it.", "quantifier": "all letters (also forged ones), envelopes, registered suites, trust stores, callbacks and primitives", "why_tests_cant": "A claim about everybody who is not supposed to open a letter; a test tries a few wrong keys.", "anchors": ["core.go: setupOpeningKeyMaterial, Open", "letter.go: Letter.Open, Envelope", "envelope.go: PrepareSignets, prepSignets"]}
{"id": "C72", "title": "Goroutines sharing a MemTrustStore", "statement": "Goroutines that open, verify or close at the same time with one MemTrustStore: if LoadKey was called on every stored signet before, each has in every schedule the result it would have alone and the store does not change. Otherwise (the store hands out the stored signet itself and its key is loaded into it without a lock) a goroutine can find private keys missing that another one is just loading, and opening can crash; nothing else is mixed up, errors are the same, and verifying is always right. Nobody waits: a goroutine ends after a bounded number of its own steps.", "quantifier": "all numbers of goroutines, envelopes, letters, stores and all schedules (sequentially consistent)", "why_tests_cant": "Depends on where the scheduler interrupts a goroutine; the window is two assignments wide.", "anchors": ["truststore.go: MemTrustStore.GetSignet", "signet.go: LoadKey, SetLoadedKeys", "envelope.go: PrepareSignets, prepSignets, fillPassword", "letter.go: Letter.Open, Letter.Verify"]}
{"id": "C73", "title": "Trust stores are linearizable", "statement": "Goroutines that call GetSignet, StoreSignet, DeleteSignet, SelectSignets (and the calls for envelopes) of one MemTrustStore or DirTrustStore at the same time get the answers they would get if the calls were made one after the other on a map (or directory), in an order in which a call that had returned comes before one that was made later. No two are inside at the same time, no call waits forever. Two DirTrustStores for one directory do not exclude each other: a reader can fail on a signet that is there before and after the writer's call.", "quantifier": "all numbers of goroutines, all calls and all interleavings of their single accesses to the map or files (sequentially consistent; files are written byte by byte)", "why_tests_cant": "Depends on the schedule; every interleaving has to be explained by some sequential order.", "anchors": ["truststore.go: MemTrustStore", "truststores/dir.go: DirTrustStore", "truststores/io.go: WriteSignetToFile, LoadSignetFromFile, WriteEnvelopeToFile, LoadEnvelopeFromFile"]}
{"id": "C74", "title": "Data enters a letter only through the ciphers", "statement": "Letters closed by one session from the same state, with whatever data, have the same version, suite, nonce, keys, key switch and signers; and if the encrypted data is the same, the letters are. With a registered suite that provides confidentiality the data of the letter is the data sealed with CHACHA20-POLY1305 under a key and nonce that do not depend on the data; with any other registered suite the data is in the letter as it is. Two conversations with a (plain or wire) session that differ only in the data that is closed get the same answers but for the data, MAC and signature values of the letters; without signatures the same letters are refused.", "quantifier": "all sessions and session states, all data, all buffers, all lists of requests", "why_tests_cant": "A statement about pairs of runs for all data and all histories (noninterference).", "anchors": ["core.go: Session.Close, setupClosingKeyMaterial, setup", "core-wire.go: sendHandshakeAndInitKDF", "letter.go: compileAssociatedData, compileAssociatedSigningData"]}
{"id": "C75", "title": "Message keys are overwritten", "statement": "When Close, Open or Verify of a session has come to a result, or Open has failed authentication, no cipher or MAC tool of the session holds a key or nonce: what there is of them is overwritten with 0xFF. For plain sessions with a registered suite and primitives that do not fail this is so after any history of requests, whatever became of them. (Not so, shown as refuted: the key derivation tool keeps the secret it was given, from which the keys of the last letter can be derived again.)", "quantifier": "all sessions, states and requests; all histories of requests", "why_tests_cant": "Every way out of Close and Open, including every error, has to be covered for every input and every history.", "anchors": ["core.go: Session.Close, Session.Open, setup, reset", "helper.go: Burn", "tools/gostdlib/chacha20-poly1305.go: Setup, Reset", "tools/gostdlib/hkdf.go, tools/blake3/kdf.go: no Reset of the secret"]}
{"id": "C76", "title": "Tables and menus show every entry on a line of its own", "statement": "A table whose cells are plain text (no tab, line break or 0xFF), not longer than what the line scanner can hold, is printed with one line per row, in order: the cells of the row follow each other with at least three spaces between, and columns that consecutive rows share stand at the same place. `jess list` prints under its headers one line for every suite, tool and hash tool, in order, which begins with its name and shows, under the right headers, what the entry is: a suite's attributes, level, tools and whether it is deprecated or recommended, a tool's purpose, level (or that it depends on the key), author and comment, a hash tool's level, author and comment. Security levels read as their decimal numbers. In the menu of suites of `jess configure` every suite has its line, which shows the same of it, and choosing that line takes that suite. In the menu for editing an envelope every entry has its line and no line is taken for another entry, whatever plain names the signets have. In the menu of signets every signet has its line, with its name (or, without one, its ID), what it is, and its scheme, and choosing that line picks that signet, whatever the names and IDs of the others. (Not so, shown as refuted: with a line feed in the name of a signet, which an import does not exclude, the menu has lines that read as entries of their own, and choosing one picks another signet; in the menu for editing an envelope such a name can add an entry that deletes the envelope.)", "quantifier": "all tables, registries, lists of signets, and ways to count the characters of a cell", "why_tests_cant": "The layout of a line depends on all lines around it; the claim ranges over all names, IDs and sizes.", "anchors": ["cmd/format.go: formatColumns, formatSignet*", "cmd/cmd-list.go: listCmd", "cmd/cfg-signet.go: pickSignet", "cmd/cfg-envelope.go: editEnvelopeSuite", "cmd/cfg-envelope.go: editEnvelope"]}
{"id": "C77", "title": "What is registered is found, and listed once and in order", "statement": "After any sequence of registrations, Get of a name gives the tool (hash tool) registered last under that name and reports an unknown name as not found; AsList has every registration exactly once, in the bytewise order of the names. If the names are distinct, Get and AsList agree and neither depends on the order in which the init functions ran; so whatever that order, the registries of jess are the ones used everywhere else in this model. The first registration of a suite ID stays, the ID is returned in every case, and Suites lists the registered suites once, in the order of registration. (Not so, shown as refuted: a tool that was replaced by registering its name again is still listed.)", "quantifier": "all histories of registrations, names, and orders in which init functions run", "why_tests_cant": "Tests see the one order of initialisation the linker chose, and only the tools compiled in.", "anchors": ["tools/tools.go: Register, Get, AsList", "hashtools/tools.go: Register, Get, AsList", "suites.go: registerSuite, GetSuite, Suites"]}
{"id": "C78", "title": "Forged and replayed letters in a wire session face the current link of the key chain", "statement": "Whatever a wire session of either role was asked to close, open or verify before, and whether or not that succeeded: a letter it opens was accepted by every cipher and MAC tool of the suite under keys derived, with the letter's nonce, from the chain key the session had at that moment and new key material, and the chain key moves on. Of two letters the same session accepts, with anything in between, the later was accepted under a chain key that descends from the link of the earlier; so a replayed letter is only accepted if it passes every tool under two generations of keys. A wire session does not survive the loss or the repetition of a letter: the genuine letter that follows is refused.", "quantifier": "every wire session, every history of closes, opens and verifies of arbitrary letters, every accepted letter and every later one", "why_tests_cant": "any history of genuine, forged, repeated and reordered letters", "anchors": ["core.go:Session.Open", "core-wire.go:Session.recvHandshakeAndInitKDF", "core-wire.go:Session.sendHandshakeAndInitKDF", "session-wire.go"]}
{"id": "C79", "title": "Where randomness comes from, also when goroutines set the source at the same time", "statement": "Random() returns the built-in source only if no SetCustomRNG had returned when it was called, and otherwise a reader that was passed to a SetCustomRNG which was called before any SetCustomRNG had returned; it never returns an unset reader. If calls of SetCustomRNG do not overlap, the first one wins. Once all calls made so far have returned, the source never changes again, also when SetCustomRNG is called again. While calls overlap the source can still change after one of them has returned: a goroutine that set its own reader and saw it in use can later be given the reader of another goroutine. RandomBytes(n) succeeds exactly if a single Read of n bytes delivers n bytes without an error; it panics exactly for negative n; a short read, which io.Reader allows, is an error.", "quantifier": "every number of goroutines, every interleaving of the accesses of SetCustomRNG and Random, every reader and size", "why_tests_cant": "all schedules of any number of goroutines, and all readers", "anchors": ["random.go:Random", "random.go:RandomBytes", "random.go:SetCustomRNG"]}
{"id": "C80", "title": "The beginning of a wire session can be replayed to a new session", "statement": "Every new wire session of the same party makes the same of a sequence of letters, as long as it does not close any itself: what a server opened of a client up to its first answer opens again, to the same data, in any number of other sessions of that server, whoever sends it. It also does after the sessions have answered, each on its own: two sessions that opened the same first letter make the same of all later letters that carry neither keys nor the ApplyKeys flag, whatever each of them closes and verifies in between. Once the client applies the new keys of the server, its letters no longer open in another session.", "quantifier": "every suite, keys and role, every sequence of letters (genuine or not), every randomness of the sessions, everything that two sessions close and verify in between; the end of it is shown by a session", "why_tests_cant": "all sequences of letters and all randomness of both sessions", "anchors": ["core.go:Session.Open", "core-wire.go:Session.recvHandshakeAndInitKDF", "session-wire.go"]}
