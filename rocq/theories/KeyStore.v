(** Storing and loading key pairs: tools/ecdh/x25519.go, tools/ecdh/nist.go, tools/gostdlib/ed25519.go,
    tools/gostdlib/rsa-keys.go.  The value that varint.Unpack8 skips for a two byte number does not matter here
    (the version must be 1); it is a parameter of [get_n8] and fixed to 2. *)
From Verif Require Import Prelude Container Encodings Tools.

(** What other packages decide: the curve checks (github.com/aead/ecdh), and RSA keys with their PKCS#1 form (crypto/rsa, crypto/x509). *)
Record ext := mkExt {
  RPub : Type; RPriv : Type;
  x_check : bytes -> bool;
  n_check : bytes -> N -> N -> bool;
  r_pub_bytes : RPub -> bytes; r_parse_pub : bytes -> option RPub;
  r_priv_bytes : RPriv -> bytes; r_parse_priv : bytes -> option RPriv;
  r_validate : RPriv -> bool; r_public : RPriv -> RPub }.

(** The loaded keys are interface values; their dynamic types are [[32]byte], ecdh.Point/[]byte,
    ed25519.PublicKey/PrivateKey and *rsa.PublicKey/*rsa.PrivateKey.  A private key may be nil or a nil of its type. *)
Inductive pubkey (e : ext) := PubX (b : bytes) | PubN (x y : N) | PubE (b : bytes) | PubR (p : RPub e).
Inductive prvkey (e : ext) := SNil | SNilE | SNilR | SX (b : bytes) | SN (b : bytes) | SE (b : bytes) | SR (k : RPriv e).
Arguments PubX {e}. Arguments PubN {e}. Arguments PubE {e}. Arguments PubR {e}.
Arguments SNil {e}. Arguments SNilE {e}. Arguments SNilR {e}. Arguments SX {e}. Arguments SN {e}. Arguments SE {e}. Arguments SR {e}.

(** Which implementation a tool has: ecdh/x25519.go:13-24, ecdh/nist.go:15-50, ed25519.go:12-24, rsa-oaep.go:10-24, rsa-pss.go:10-24. *)
Inductive logic := LX | LN (curve : bytes) | LE | LR.
Definition logic_of (name : bytes) : option logic :=
  if bytes_eqb name (lit "ECDH-X25519") then Some LX
  else if existsb (bytes_eqb name) [lit "ECDH-P224"; lit "ECDH-P256"; lit "ECDH-P384"; lit "ECDH-P521"] then Some (LN name)
  else if bytes_eqb name (lit "Ed25519") then Some LE
  else if bytes_eqb name (lit "RSA-OAEP") || bytes_eqb name (lit "RSA-PSS") then Some LR
  else None.

(** big.Int.Bytes and SetBytes: big endian, no leading zeros. *)
Definition big_bytes (n : N) : bytes := map n2b (digits 256 n).
Definition big_of (b : bytes) : N := value 256 (map b2n b).

Section KeyStore.
Context {e : ext}.
Definition version1 : bytes := uvarint 1.
(** The version check all four begin with: x25519.go:44-48, nist.go:71-75, ed25519.go:78-82, rsa-keys.go:26-30. *)
Definition get_version (key : bytes) : outcome bytes :=
  match get_n8 2 key with
  | Ok (v, c) => if (v =? 1)%N then Ok c else Err EInvalidKey
  | _ => Err EInvalidKey
  end.

(** x25519.go:81-106 StoreKey.  The result: SetStoredKey(key, public). *)
Definition store_x (pub : pubkey e) (prv : prvkey e) : outcome (bytes * bool) :=
  match pub with
  | PubX p => match prv with
              | SNil => Ok (version1 ++ p, true)
              | SX s => Ok (version1 ++ p ++ s, false)
              | _ => Err EOther
              end
  | _ => Err EOther
  end.
(** x25519.go:37-78 LoadKey. *)
Definition load_x (key : bytes) (public : bool) : outcome (pubkey e * prvkey e) :=
  do c <- get_version key;
  match get_bytes 32 c with
  | Ok (p, c1) =>
      if x_check e p then
        if public then Ok (PubX p, SNil)
        else match get_bytes 32 c1 with Ok (s, _) => Ok (PubX p, SX s) | _ => Err EInvalidKey end
      else Err EInvalidKey
  | _ => Err EInvalidKey
  end.

(** nist.go:109-137 StoreKey. *)
Definition store_n (pub : pubkey e) (prv : prvkey e) : outcome (bytes * bool) :=
  match pub with
  | PubN x y => let c := version1 ++ block (big_bytes x) ++ block (big_bytes y) in
                match prv with
                | SNil => Ok (c, true)
                | SN s => Ok (c ++ s, false)
                | _ => Err EOther
                end
  | _ => Err EOther
  end.
(** nist.go:64-106 LoadKey. *)
Definition load_n (curve key : bytes) (public : bool) : outcome (pubkey e * prvkey e) :=
  do c <- get_version key;
  do (xb, c1) <- get_block c;
  do (yb, c2) <- get_block c1;
  if n_check e curve (big_of xb) (big_of yb)
  then Ok (PubN (big_of xb) (big_of yb), if public then SNil else SN c2)
  else Err EInvalidKey.

(** ed25519.go:106-132 StoreKey: a nil of type ed25519.PrivateKey is not a nil interface. *)
Definition store_e (pub : pubkey e) (prv : prvkey e) : outcome (bytes * bool) :=
  match prv with
  | SNil => match pub with PubE p => Ok (version1 ++ p, true) | _ => Err EInvalidKey end
  | SE k => Ok (version1 ++ k, false)
  | SNilE => Ok (version1, false)
  | _ => Err EInvalidKey
  end.
(** ed25519.go:71-103 LoadKey; PrivateKey.Public is the second half. *)
Definition load_e (key : bytes) (public : bool) : outcome (pubkey e * prvkey e) :=
  do c <- get_version key;
  if public then (if (length c =? 32)%nat then Ok (PubE c, SNilE) else Err EInvalidKey)
  else (if (length c =? 64)%nat then Ok (PubE (skipn 32 c), SE c) else Err EInvalidKey).

(** rsa-keys.go:57-84 StoreKey: marshalling a nil key panics. *)
Definition store_r (pub : pubkey e) (prv : prvkey e) : outcome (bytes * bool) :=
  match prv with
  | SNil => match pub with PubR p => Ok (version1 ++ r_pub_bytes e p, true) | _ => Err EInvalidKey end
  | SR k => Ok (version1 ++ r_priv_bytes e k, false)
  | SNilR => Panic
  | _ => Err EInvalidKey
  end.
(** rsa-keys.go:19-54 LoadKey. *)
Definition load_r (key : bytes) (public : bool) : outcome (pubkey e * prvkey e) :=
  do c <- get_version key;
  if public then match r_parse_pub e c with Some p => Ok (PubR p, SNilR) | None => Err EInvalidKey end
  else match r_parse_priv e c with
       | Some k => if r_validate e k then Ok (PubR (r_public e k), SR k) else Err EInvalidKey
       | None => Err EInvalidKey
       end.

(** Tools that have no keys: tools/toollogic.go:278-296, ErrNotImplemented. *)
Definition store_keys (name : bytes) (pub : pubkey e) (prv : prvkey e) : outcome (bytes * bool) :=
  match logic_of name with
  | Some LX => store_x pub prv
  | Some (LN _) => store_n pub prv
  | Some LE => store_e pub prv
  | Some LR => store_r pub prv
  | None => Err EOther
  end.
Definition load_keys (name : bytes) (key : bytes) (public : bool) : outcome (pubkey e * prvkey e) :=
  match logic_of name with
  | Some LX => load_x key public
  | Some (LN curve) => load_n curve key public
  | Some LE => load_e key public
  | Some LR => load_r key public
  | None => Err EOther
  end.
End KeyStore.
