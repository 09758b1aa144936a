(** tools/tool.go, tools/tools.go, hashtools/*.go, suite*.go: the registries
    of tools, hash tools and suites. *)
From Verif Require Import Prelude Requirements.

(** tools/tool.go:33-72 (Purpose* constants). *)
Inductive purpose :=
| PKeyDerivation | PPassDerivation | PKeyExchange | PKeyEncapsulation
| PSigning | PIntegratedCipher | PCipher | PMAC.

(** tools/tool.go:74-98 (Option* constants). *)
Inductive toption :=
| OStreaming | OManagedHasher | ODedicatedHasher | ONeedsSecurityLevel | ONeedsDefaultKeySize | OHasState.

(** tools/tool.go:18-31  ToolInfo; Comment and Author are left out. *)
Record tool := mkTool {
  t_name : bytes;
  t_purpose : purpose;
  t_options : list toption;
  t_keysize : Z;
  t_noncesize : Z;
  t_level : Z
}.

Definition toption_eqb (a b : toption) : bool :=
  match a, b with
  | OStreaming, OStreaming | OManagedHasher, OManagedHasher | ODedicatedHasher, ODedicatedHasher
  | ONeedsSecurityLevel, ONeedsSecurityLevel | ONeedsDefaultKeySize, ONeedsDefaultKeySize
  | OHasState, OHasState => true
  | _, _ => false
  end.
(** tools/tool.go:101-108. *)
Definition has_option (t : tool) (o : toption) : bool := existsb (toption_eqb o) (t_options t).

(** hashtools/hashtool.go:11-25; only what the model uses.  [h_crypto]: name of the
    Go crypto.Hash it is labelled with ([] for none), [h_digest]: digest size. *)
Record hashtool := mkHash { h_name : bytes; h_level : Z; h_digest : Z; h_crypto : bytes }.

(** hashtools/sha.go:15-118, blake2.go:13-56, blake3.go:11-22. *)
Definition hash_registry : list hashtool :=
  [ mkHash (lit "SHA2-224") 112 28 (lit "SHA224");
    mkHash (lit "SHA2-256") 128 32 (lit "SHA256");
    mkHash (lit "SHA2-384") 192 48 (lit "SHA384");
    mkHash (lit "SHA2-512") 256 64 (lit "SHA512");
    mkHash (lit "SHA2-512-224") 112 28 (lit "SHA512_224");
    mkHash (lit "SHA2-512-256") 128 32 (lit "SHA512_256");
    mkHash (lit "SHA3-224") 112 28 (lit "SHA3_224");
    mkHash (lit "SHA3-256") 128 32 (lit "SHA3_256");
    mkHash (lit "SHA3-384") 192 48 (lit "SHA3_384");
    mkHash (lit "SHA3-512") 256 64 (lit "SHA3_512");
    mkHash (lit "BLAKE2s-256") 128 32 (lit "BLAKE2b_256");   (* blake2.go:22: as in the source *)
    mkHash (lit "BLAKE2b-256") 128 32 (lit "BLAKE2b_256");
    mkHash (lit "BLAKE2b-384") 192 48 (lit "BLAKE2b_384");
    mkHash (lit "BLAKE2b-512") 256 64 (lit "BLAKE2b_512");
    mkHash (lit "BLAKE3") 128 32 [] ].

(** All tools registered by tools/all/all.go.  Files: blake3/kdf.go:13-24,
    ecdh/nist.go:15-50, ecdh/x25519.go:13-24, gostdlib/aes-ctr.go:10-44,
    aes-gcm.go:10-44, chacha20-poly1305.go:11-25, ed25519.go:12-24, hkdf.go:14-26,
    hmac.go:10-25, pbkdf2.go:13-25, poly1305.go:11-24, rsa-oaep.go:10-24,
    rsa-pss.go:10-24, salsa20.go:9-23, scrypt.go:10-22. *)
Definition tool_registry : list tool :=
  [ mkTool (lit "AES128-CTR") PCipher [OHasState] 16 16 128;
    mkTool (lit "AES192-CTR") PCipher [OHasState] 24 16 192;
    mkTool (lit "AES256-CTR") PCipher [OHasState] 32 16 256;
    mkTool (lit "AES128-GCM") PIntegratedCipher [OHasState] 16 12 128;
    mkTool (lit "AES192-GCM") PIntegratedCipher [OHasState] 24 12 192;
    mkTool (lit "AES256-GCM") PIntegratedCipher [OHasState] 32 12 256;
    mkTool (lit "BLAKE3-KDF") PKeyDerivation [] 0 0 128;
    mkTool (lit "CHACHA20-POLY1305") PIntegratedCipher [OHasState] 32 12 128;
    mkTool (lit "ECDH-P224") PKeyExchange [] 0 0 112;
    mkTool (lit "ECDH-P256") PKeyExchange [] 0 0 128;
    mkTool (lit "ECDH-P384") PKeyExchange [] 0 0 192;
    mkTool (lit "ECDH-P521") PKeyExchange [] 0 0 256;
    mkTool (lit "ECDH-X25519") PKeyExchange [] 0 0 128;
    mkTool (lit "Ed25519") PSigning [OManagedHasher] 0 0 128;
    mkTool (lit "HKDF") PKeyDerivation [ODedicatedHasher] 0 0 0;
    mkTool (lit "HMAC") PMAC [ODedicatedHasher; OHasState] 0 0 0;
    mkTool (lit "PBKDF2-SHA2-256") PPassDerivation [ONeedsDefaultKeySize] 0 0 0;
    mkTool (lit "POLY1305") PMAC [OHasState] 32 0 128;
    mkTool (lit "RSA-OAEP") PKeyEncapsulation [ODedicatedHasher; ONeedsSecurityLevel] 0 0 0;
    mkTool (lit "RSA-PSS") PSigning [OManagedHasher; ONeedsSecurityLevel] 0 0 0;
    mkTool (lit "SALSA20") PCipher [OHasState] 32 8 256;
    mkTool (lit "SCRYPT-20") PPassDerivation [ONeedsDefaultKeySize] 0 0 0 ].

(** tools/tools.go:22-28 Get (a map lookup by name); hashtools/tools.go:26-32 Get. *)
Definition tools_get (reg : list tool) (name : bytes) : outcome tool :=
  of_option ENotFound (find (fun t => bytes_eqb (t_name t) name) reg).
Definition hash_get (hreg : list hashtool) (name : bytes) : outcome hashtool :=
  of_option ENotFound (find (fun h => bytes_eqb (h_name h) name) hreg).

(** session.go:117-123: split at "(", strip parentheses from the second part.
    [before_paren s] = splitted[0]; [paren_arg s] = Trim(splitted[1], "()"). *)
Definition is_open (b : byte) : bool := N.eqb (b2n b) 40.
Definition is_paren (b : byte) : bool := N.eqb (b2n b) 40 || N.eqb (b2n b) 41.
Fixpoint before_paren (s : bytes) : bytes :=
  match s with [] => [] | b :: s' => if is_open b then [] else b :: before_paren s' end.
Fixpoint after_paren (s : bytes) : option bytes :=
  match s with [] => None | b :: s' => if is_open b then Some s' else after_paren s' end.
Fixpoint drop_parens (s : bytes) : bytes :=
  match s with [] => [] | b :: s' => if is_paren b then drop_parens s' else s end.
Definition trim_parens (s : bytes) : bytes := rev (drop_parens (rev (drop_parens s))).
Definition parse_tool_id (id : bytes) : bytes * bytes :=
  match after_paren id with
  | None => (id, [])
  | Some rest => (before_paren id, trim_parens (before_paren rest))
  end.

(** suite.go:11-17. *)
Record suite := mkSuite {
  su_id : bytes; su_tools : list bytes; su_provides : reqs; su_level : Z; su_status : N }.

Definition reqs_no_sender : reqs := req_remove newRequirements SenderAuthentication.
Definition reqs_sign : reqs := req_add (req_add newEmptyRequirements Integrity) SenderAuthentication.

(** suites_v1.go:3-61, suites_v2.go:3-61. *)
Definition suite_registry : list suite :=
  [ mkSuite (lit "key_v1") [lit "HKDF(BLAKE2b-256)"; lit "CHACHA20-POLY1305"] newRequirements 128 2;
    mkSuite (lit "pw_v1") [lit "SCRYPT-20"; lit "HKDF(BLAKE2b-256)"; lit "CHACHA20-POLY1305"] newRequirements 128 2;
    mkSuite (lit "rcpt_v1") [lit "ECDH-X25519"; lit "HKDF(BLAKE2b-256)"; lit "CHACHA20-POLY1305"] reqs_no_sender 128 2;
    mkSuite (lit "sign_v1") [lit "Ed25519(BLAKE2b-256)"] reqs_sign 128 2;
    mkSuite (lit "signfile_v1") [lit "Ed25519(SHA2-256)"] reqs_sign 128 2;
    mkSuite (lit "v1") [lit "ECDH-X25519"; lit "Ed25519(BLAKE2b-256)"; lit "HKDF(BLAKE2b-256)"; lit "CHACHA20-POLY1305"] newRequirements 128 2;
    mkSuite (lit "w1") [lit "ECDH-X25519"; lit "HKDF(BLAKE2b-256)"; lit "CHACHA20-POLY1305"] reqs_no_sender 128 2;
    mkSuite (lit "key_v2") [lit "BLAKE3-KDF"; lit "CHACHA20-POLY1305"] newRequirements 128 1;
    mkSuite (lit "pw_v2") [lit "SCRYPT-20"; lit "BLAKE3-KDF"; lit "CHACHA20-POLY1305"] newRequirements 128 1;
    mkSuite (lit "rcpt_v2") [lit "ECDH-X25519"; lit "BLAKE3-KDF"; lit "CHACHA20-POLY1305"] reqs_no_sender 128 1;
    mkSuite (lit "sign_v2") [lit "Ed25519(BLAKE3)"] reqs_sign 128 1;
    mkSuite (lit "signfile_v2") [lit "Ed25519(BLAKE3)"] reqs_sign 128 1;
    mkSuite (lit "v2") [lit "ECDH-X25519"; lit "Ed25519(BLAKE3)"; lit "BLAKE3-KDF"; lit "CHACHA20-POLY1305"] newRequirements 128 1;
    mkSuite (lit "w2") [lit "ECDH-X25519"; lit "BLAKE3-KDF"; lit "CHACHA20-POLY1305"] reqs_no_sender 128 1 ].

(** suites.go:39-42 GetSuite. *)
Definition get_suite (sreg : list suite) (id : bytes) : option suite :=
  find (fun s => bytes_eqb (su_id s) id) sreg.

(** RSA: tools/gostdlib/rsa-keys.go:181-213. *)
Definition rsa_size_for_level (level : Z) : Z :=
  if (level <=? 112)%Z then 2048 else if (level <=? 128)%Z then 3072
  else if (level <=? 192)%Z then 7680 else if (level <=? 256)%Z then 15360 else 256.
Definition rsa_level_for_size (size : Z) : Z :=
  if (15360 <=? size)%Z then 256 else if (7680 <=? size)%Z then 192
  else if (3072 <=? size)%Z then 128 else if (2048 <=? size)%Z then 112
  else if (1024 <=? size)%Z then 80 else if (512 <=? size)%Z then 56 else -1.
