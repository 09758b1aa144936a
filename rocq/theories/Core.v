(** core.go, core-wire.go, session-wire.go, helper.go: closing, opening and
    verifying letters, and the wire handshake, as state transformers over the
    mutable part of a session. *)
From Verif Require Import Prelude Tools Crypto Letter Session.

(** ** The mutable state of a session *)

(** State of a tool instance between Setup and Reset: key, IV/nonce, and the two
    flags of POLY1305 (tools/gostdlib/poly1305.go:27-32). *)
Record tstate := mkTState { ts_key : bytes; ts_iv : bytes; ts_set : bool; ts_used : bool }.
Definition ts_zero : tstate := mkTState [] [] false false.

(** The reader of the key derivation tool (tools/gostdlib/hkdf.go:28-32,
    tools/blake3/kdf.go:26-30): nonce, secret, and how much was read. *)
Record kdfstate := mkKdf { kd_nonce : bytes; kd_secret : bytes; kd_off : nat }.

(** session-wire.go:10-17. *)
Inductive hstate := HInit | HIdle | HSendKey | HAwaitKey | HSendApply | HAwaitApply.

(** session-wire.go:46-51.  Own signet: None = nil, Some None = a signet whose key
    generation failed, Some (Some (pub, priv)).  Peer: stored public key. *)
Record kxpair := mkKx { kx_tool : inst; kx_own : option (option (bytes * bytes)); kx_peer : option bytes }.

(** session-wire.go:53-58.  [signet] is a local key pair on the client and the
    client's public key (stored form) on the server. *)
Inductive kesig := KNone | KOwn (p : option (bytes * bytes)) | KPeer (stored : bytes).
Record kepair := mkKe { ke_tool : inst; ke_sig : kesig; ke_seal : option bytes }.

(** session-wire.go:28-44.  [msgNo] is a uint64; it is a number without bound here
    (2^64 messages).  lastReKeyAtMsgNo is never written by the code: it stays 0. *)
Record wstate := mkWire {
  w_server : bool;
  w_msgno : N;
  w_last : N;
  w_send : bytes;
  w_recv : bytes;
  w_kx : list kxpair;
  w_ke : list kepair;
  w_state : hstate;
  w_new : list bytes
}.
Definition wire_start (server : bool) : wstate := mkWire server 0 0 [] [] [] [] HInit [].

(** The mutable state: number of random draws so far, key derivation reader, state
    of the stateful tools by position in the suite, what the managed MAC and signing
    hashers have accumulated (session.go:46-57), the wire session, and while an
    operation runs: the seals added to the letter, the key material, the seal index
    and the bytes of the data buffer that was handed in. *)
Record rt := mkRt {
  r_draw : nat;
  r_kdf : option kdfstate;
  r_tools : nat -> tstate;
  r_mach : bytes -> bytes;
  r_sigh : bytes -> bytes;
  r_wire : option wstate;
  r_keys : list seal;
  r_mat : list bytes;
  r_idx : nat;
  r_buf : bytes
}.

(** A session as newSession leaves it. *)
Definition rt_start (draw : nat) (w : option wstate) : rt :=
  mkRt draw None (fun _ => ts_zero) (fun _ => []) (fun _ => []) w [] [] 0 [].

Definition set_draw (r : rt) x := mkRt x (r_kdf r) (r_tools r) (r_mach r) (r_sigh r) (r_wire r) (r_keys r) (r_mat r) (r_idx r) (r_buf r).
Definition set_kdf (r : rt) x := mkRt (r_draw r) x (r_tools r) (r_mach r) (r_sigh r) (r_wire r) (r_keys r) (r_mat r) (r_idx r) (r_buf r).
Definition set_tools (r : rt) x := mkRt (r_draw r) (r_kdf r) x (r_mach r) (r_sigh r) (r_wire r) (r_keys r) (r_mat r) (r_idx r) (r_buf r).
Definition set_mach (r : rt) x := mkRt (r_draw r) (r_kdf r) (r_tools r) x (r_sigh r) (r_wire r) (r_keys r) (r_mat r) (r_idx r) (r_buf r).
Definition set_sigh (r : rt) x := mkRt (r_draw r) (r_kdf r) (r_tools r) (r_mach r) x (r_wire r) (r_keys r) (r_mat r) (r_idx r) (r_buf r).
Definition set_wire (r : rt) x := mkRt (r_draw r) (r_kdf r) (r_tools r) (r_mach r) (r_sigh r) x (r_keys r) (r_mat r) (r_idx r) (r_buf r).
Definition set_acc (r : rt) k m i := mkRt (r_draw r) (r_kdf r) (r_tools r) (r_mach r) (r_sigh r) (r_wire r) k m i (r_buf r).
Definition set_buf (r : rt) x := mkRt (r_draw r) (r_kdf r) (r_tools r) (r_mach r) (r_sigh r) (r_wire r) (r_keys r) (r_mat r) (r_idx r) x.

(** ** State transformers that may fail *)

Definition M (A : Type) := rt -> outcome A * rt.
Definition ret {A} (a : A) : M A := fun r => (Ok a, r).
Definition fail {A} (e : err) : M A := fun r => (Err e, r).
Definition panic {A} : M A := fun r => (Panic, r).
Definition lift {A} (x : outcome A) : M A := fun r => (x, r).
Definition mbind {A B} (m : M A) (f : A -> M B) : M B :=
  fun r => match m r with
           | (Ok a, r') => f a r'
           | (Err e, r') => (Err e, r')
           | (Panic, r') => (Panic, r')
           end.
Declare Scope core_scope.
Notation "'run' x <- e ; f" := (mbind e (fun x => f))
  (at level 200, x pattern, e at level 100, f at level 200, right associativity) : core_scope.
Open Scope core_scope.
Definition gets {A} (f : rt -> A) : M A := fun r => (Ok (f r), r).
Definition modify (f : rt -> rt) : M unit := fun r => (Ok tt, f r).
Definition check (b : bool) (e : err) : M unit := if b then ret tt else fail e.
(** [defer]: the function runs when the body ends, however it ends. *)
Definition deferred {A} (f : rt -> rt) (m : M A) : M A := fun r => let (x, r') := m r in (x, f r').

Fixpoint each {A} (f : A -> M unit) (l : list A) : M unit :=
  match l with [] => ret tt | a :: l' => run _ <- f a; each f l' end.
Fixpoint foldT {A B} (f : B -> A -> M B) (b : B) (l : list A) : M B :=
  match l with [] => ret b | a :: l' => run b' <- f b a; foldT f b' l' end.

(** A loop [for ... { err = f(x) }] whose error variable is only looked at after the
    loop: the error of a round is lost unless it is the last (core.go:431-479,
    481-517, 567-605, 607-631); a panic ends it. *)
Fixpoint each_last {A} (f : A -> M unit) (l : list A) : M unit :=
  match l with
  | [] => ret tt
  | [a] => f a
  | a :: l' => fun r => match f a r with
                        | (Panic, r') => (Panic, r')
                        | (_, r') => each_last f l' r'
                        end
  end.

Section Core.
Variable c : config.
Variable cr : crypto.
Variable s : session.

(** random.go RandomBytes, as numbered draws. *)
Definition rand (n : Z) : M bytes := fun r =>
  (match cr_rand cr (r_draw r) (Z.to_nat n) with Some b => Ok b | None => Err EOther end,
   set_draw r (S (r_draw r))).

(** Signet.GenerateKey of a fresh signet of a tool (signet.go:82-108). *)
Definition gen (t : bytes) : M (bytes * bytes) := fun r =>
  (match cr_gen cr t (r_draw r) with Some p => Ok p | None => Err EOther end,
   set_draw r (S (r_draw r))).

Definition add_key (k : seal) : M unit := modify (fun r => set_acc r (r_keys r ++ [k]) (r_mat r) (r_idx r)).
Definition add_mat (m : bytes) : M unit := modify (fun r => set_acc r (r_keys r) (r_mat r ++ [m]) (r_idx r)).
Definition next_idx : M unit := modify (fun r => set_acc r (r_keys r) (r_mat r) (S (r_idx r))).
Definition upd_wire (f : wstate -> wstate) : M unit :=
  modify (fun r => match r_wire r with Some w => set_wire r (Some (f w)) | None => r end).
Definition is_wire : M bool := gets (fun r => negb (is_none (r_wire r))).

(** helper.go:79-84 DefaultSymmetricKeySize. *)
Definition helper_dks : Z := if (0 <? s_dks s)%Z then s_dks s else c_default_ks c.

(** ** Key derivation *)

Definition kdf_name : bytes := match s_kdf s with Some k => i_name k | None => [] end.
Definition kdf_hash : bytes := match s_kdf s with Some k => i_arg k | None => [] end.

(** tools/gostdlib/hkdf.go:35-50, tools/blake3/kdf.go:33-50 InitKeyDerivation. *)
Definition kdf_init (nonce : bytes) (mat : list bytes) : M unit :=
  if negb (nonempty mat) || negb (nonempty (hd [] mat)) || negb (nonempty nonce) then fail EOther
  else modify (fun r => set_kdf r (Some (mkKdf nonce (concat mat) 0))).

(** hkdf.go:53-68, kdf.go:53-68 DeriveKey/DeriveKeyWriteTo (a failing read of HKDF
    consumes nothing). *)
Definition kdf_read (n : Z) : M bytes := fun r =>
  match r_kdf r with
  | None => (Panic, r)
  | Some k =>
      match cr_kdf cr kdf_name kdf_hash (kd_nonce k) (kd_secret k) (kd_off k) (Z.to_nat n) with
      | Some b => (Ok b, set_kdf r (Some (mkKdf (kd_nonce k) (kd_secret k) (kd_off k + Z.to_nat n))))
      | None => (Err EOther, r)
      end
  end.

Definition pick_size (own : Z) : Z := if (0 <? own)%Z then own else s_dks s.   (* helper.go:30-33,57-60 *)

Definition upd_tool (i : inst) (f : tstate -> tstate) : M unit :=
  modify (fun r => set_tools r (fun n => if (n =? i_idx i)%nat then f (r_tools r n) else r_tools r n)).

Definition has_iv (i : inst) : bool :=
  match t_purpose (i_tool i) with PCipher | PIntegratedCipher => true | _ => false end.

(** Setup of the stateful tools: aes-ctr.go:54-77, aes-gcm.go:54-82,
    chacha20-poly1305.go:35-55, salsa20.go:33-47, hmac.go:34-42, poly1305.go:35-44. *)
Definition setup_tool (i : inst) : M unit :=
  run k <- kdf_read (pick_size (t_keysize (i_tool i)));
  run _ <- upd_tool i (fun t => mkTState k (ts_iv t) (ts_set t) (ts_used t));
  run _ <- (if has_iv i
            then run v <- kdf_read (pick_size (t_noncesize (i_tool i)));
                 upd_tool i (fun t => mkTState (ts_key t) v (ts_set t) (ts_used t))
            else ret tt);
  upd_tool i (fun t => mkTState (ts_key t) (ts_iv t) true (ts_used t)).

(** core.go:637-646 setup. *)
Definition setup : M unit := each setup_tool (s_stateful s).

(** helper.go:103-109 Burn; Reset of the tools; core.go:649-659 reset. *)
Definition burned (b : bytes) : bytes := repeat (n2b 255) (length b).
Definition reset_tool (r : rt) (i : inst) : rt :=
  set_tools r (fun n => if (n =? i_idx i)%nat
                        then mkTState (burned (ts_key (r_tools r n))) (burned (ts_iv (r_tools r n))) false false
                        else r_tools r n).
Definition reset (r : rt) : rt := fold_left reset_tool (s_stateful s) r.

(** ** Managed hashers: core.go:661-681 feedManagedHashers, 683-687 resetManagedHashers. *)
Definition fed (names : list bytes) (h : bytes -> bytes) (d : bytes) (n : bytes) : bytes :=
  if existsb (bytes_eqb n) names then h n ++ d else h n.
Definition emptied (names : list bytes) (h : bytes -> bytes) (n : bytes) : bytes :=
  if existsb (bytes_eqb n) names then [] else h n.

(** ** Tools *)

Definition tool_st (i : inst) : M tstate := gets (fun r => r_tools r (i_idx i)).

(** aes-ctr.go:89-102, salsa20.go:59-72: encryption and decryption alike. *)
Definition cipher (i : inst) (d : bytes) : M bytes :=
  run t <- tool_st i; ret (xor_bytes d (cr_stream cr (i_name i) (ts_key t) (ts_iv t) (length d))).

(** aes-gcm.go:94-99, chacha20-poly1305.go:67-72. *)
Definition aead_seal (ad : bytes) (i : inst) (d : bytes) : M bytes :=
  run t <- tool_st i; ret (cr_seal cr (i_name i) (ts_key t) (ts_iv t) ad d).

(** aes-gcm.go:102-108, chacha20-poly1305.go:75-81: decryption in place.  The buffer
    keeps the bytes behind the plaintext; after a failed authentication the part the
    plaintext would occupy is zero (Go's crypto/cipher and chacha20poly1305). *)
Definition tag_size : nat := 16.
Definition aead_open (ad : bytes) (i : inst) (d : bytes) : M bytes := fun r =>
  let t := r_tools r (i_idx i) in
  match cr_open cr (i_name i) (ts_key t) (ts_iv t) ad d with
  | Some p => (Ok p, set_buf r (p ++ skipn (length p) (r_buf r)))
  | None => (Err EIntegrity,
             if (length d <? tag_size)%nat then r
             else set_buf r (repeat (n2b 0) (length d - tag_size) ++ skipn (length d - tag_size) (r_buf r)))
  end.

Definition is_poly (i : inst) : bool := bytes_eqb (i_name i) (lit "POLY1305").

(** hmac.go:53-77, poly1305.go:57-91. *)
Definition mac (d ad : bytes) (i : inst) : M bytes :=
  run t <- tool_st i;
  run _ <- (if is_poly i
            then run _ <- check (ts_set t) EOther;
                 run _ <- check (negb (ts_used t)) EOther;
                 upd_tool i (fun t => mkTState (ts_key t) (ts_iv t) (ts_set t) true)
            else ret tt);
  ret (cr_mac cr (i_name i) (i_arg i) (ts_key t) (d ++ ad)).

(** core.go:107-117 and 289-300: all MACs, in order; the managed hashers are reset when the
    whole operation ends (no MAC tool reads them). *)
Definition macs (d ad : bytes) : M bytes :=
  foldT (fun acc i => run m <- mac d ad i; ret (acc ++ m)) [] (s_macs s).

(** tools/toollogic.go:172-177 ManagedHashSum, session.go:211-236. *)
Definition digest (i : inst) : M bytes := gets (fun r => cr_hash cr (i_arg i) (r_sigh r (i_arg i))).

Definition no_crypto_hash (i : inst) : bool :=
  match i_hash i with Some h => negb (nonempty (h_crypto h)) | None => true end.
Definition is_pss (i : inst) : bool := bytes_eqb (i_name i) (lit "RSA-PSS").

(** ed25519.go:32-47, rsa-pss.go:32-53.  Key types and sizes are right by construction
    (a signet's keys are loaded by the tool of its scheme). *)
Definition sign (i : inst) (sg : signet) : M bytes :=
  match sg_priv sg with
  | PNil => fail EInvalidKey
  | PTypedNil => if is_pss i then (if no_crypto_hash i then fail EOther else panic) else fail EInvalidKey
  | PKey k =>
      if is_pss i && no_crypto_hash i then fail EOther else
      run h <- digest i;
      fun r => (match cr_sign cr (i_name i) (i_arg i) k h (r_draw r) with
                | Some v => Ok v | None => Err EOther end, set_draw r (S (r_draw r)))
  end.

(** ed25519.go:50-68, rsa-pss.go:56-77. *)
Definition verify (i : inst) (sg : signet) (sig : bytes) : M unit :=
  match sg_pub sg with
  | None => fail EInvalidKey
  | Some p =>
      if is_pss i && no_crypto_hash i then fail EOther else
      run h <- digest i;
      check (cr_verify cr (i_name i) (i_arg i) p h sig) EOther
  end.

(** x25519.go:32-34, nist.go:59-61 MakeSharedKey: ComputeSecret panics on a key of the
    wrong type, nil included. *)
Definition shared (i : inst) (priv : privkey) (pub : option bytes) : M bytes :=
  match priv, pub with
  | PKey k, Some p => ret (cr_shared cr (i_name i) k p)
  | _, _ => panic
  end.

(** rsa-oaep.go:32-59 EncapsulateKey, 62-75 UnwrapKey (DecryptOAEP dereferences the key). *)
Definition encap (i : inst) (pub : option bytes) (k : bytes) : M bytes :=
  match pub with
  | None => fail EInvalidKey
  | Some p => fun r => (match cr_encap cr (i_name i) (i_arg i) p k (r_draw r) with
                        | Some v => Ok v | None => Err EOther end, set_draw r (S (r_draw r)))
  end.
Definition unwrap (i : inst) (priv : privkey) (w : bytes) : M bytes :=
  match priv with
  | PNil => fail EInvalidKey
  | PTypedNil => panic
  | PKey k => lift (match cr_unwrap cr (i_name i) (i_arg i) k w with Some v => Ok v | None => Err EOther end)
  end.

(** scrypt.go:38-40, pbkdf2.go:39-47, called in core.go:414 and 554 (s.passDerivator may be nil). *)
Definition derive_pw (pw nonce : bytes) : M bytes :=
  match s_pass s with
  | None => panic
  | Some i => lift (match cr_pwd cr (i_name i) pw nonce helper_dks with Some k => Ok k | None => Err EOther end)
  end.

(** ** Key material: core.go:393-520 setupClosingKeyMaterial *)

Definition env : envelope := s_env s.

Definition close_key (sg : signet) : M unit :=                      (* 397-407 *)
  run _ <- add_key (mkSeal scheme_key (sg_id sg) []); add_mat (sg_key sg).

Definition close_pw (nonce : bytes) (sg : signet) : M unit :=       (* 409-428 *)
  run _ <- check (nonempty (sg_key sg)) EOther;
  run k <- derive_pw (sg_key sg) nonce;
  run _ <- add_key (mkSeal scheme_pw (sg_id sg) []); add_mat k.

Definition close_kx (i : inst) (sg : signet) : M unit :=            (* 434-475 *)
  run (pub, priv) <- gen (i_name i);
  run k <- shared i (PKey priv) (sg_pub sg);
  run _ <- add_key (mkSeal [] (sg_id sg) (cr_store_pub cr (i_name i) pub));
  run _ <- upd_wire (fun w => mkWire (w_server w) (w_msgno w) (w_last w) (w_send w) (w_recv w)
                        (w_kx w ++ [mkKx i (Some (Some (pub, priv))) None]) (w_ke w) (w_state w) (w_new w));
  add_mat k.

Definition close_ke (i : inst) (sg : signet) : M unit :=            (* 484-513 *)
  run _ <- upd_wire (fun w => mkWire (w_server w) (w_msgno w) (w_last w) (w_send w) (w_recv w)
                        (w_kx w) (w_ke w ++ [mkKe i KNone None]) (w_state w) (w_new w));
  run k <- rand helper_dks;
  run v <- encap i (sg_pub sg) k;
  run _ <- add_key (mkSeal [] (sg_id sg) v);
  add_mat k.

Definition closing_material (nonce : bytes) : M unit :=
  run _ <- each close_key (loop scheme_key (e_secrets env));
  run _ <- each (close_pw nonce) (loop scheme_pw (e_secrets env));
  run _ <- each_last (fun i => each (close_kx i) (loop (i_name i) (e_recipients env))) (s_kx s);
  each_last (fun i => each (close_ke i) (loop (i_name i) (e_recipients env))) (s_ke s).

(** ** core.go:522-634 setupOpeningKeyMaterial *)

(** letter.Keys[sealIndex] *)
Definition key_at (l : letter) : M seal := fun r =>
  (match nth_error (l_keys l) (r_idx r) with Some k => Ok k | None => Panic end, r).

Definition open_key (sg : signet) : M unit := run _ <- add_mat (sg_key sg); next_idx.   (* 542-547 *)

Definition open_pw (nonce : bytes) (sg : signet) : M unit :=        (* 549-564 *)
  run _ <- check (nonempty (sg_key sg)) EOther;
  run k <- derive_pw (sg_key sg) nonce;
  run _ <- add_mat k; next_idx.

Definition open_kx (l : letter) (i : inst) (sg : signet) : M unit :=   (* 570-601 *)
  run k <- key_at l;
  run _ <- next_idx;
  run (pub, _) <- lift (cr_load cr (i_name i) (seal_value k) true);
  run _ <- upd_wire (fun w => mkWire (w_server w) (w_msgno w) (w_last w) (w_send w) (w_recv w)
                        (w_kx w ++ [mkKx i None (Some (seal_value k))]) (w_ke w) (w_state w) (w_new w));
  run x <- shared i (sg_priv sg) (Some pub);
  add_mat x.

Definition open_ke (l : letter) (i : inst) (sg : signet) : M unit :=   (* 610-627 *)
  run _ <- upd_wire (fun w => mkWire (w_server w) (w_msgno w) (w_last w) (w_send w) (w_recv w)
                        (w_kx w) (w_ke w ++ [mkKe i KNone None]) (w_state w) (w_new w));
  run k <- key_at l;
  run x <- unwrap i (sg_priv sg) (seal_value k);
  run _ <- next_idx;
  add_mat x.

Definition opening_material (l : letter) : M unit :=
  run w <- is_wire;
  run _ <- (if w then ret tt else
              check (negb (length (e_secrets env) + length (e_senders env) + length (e_recipients env)
                           <? length (l_keys l))%nat) EOther);
  run _ <- each open_key (loop scheme_key (e_secrets env));
  run _ <- each (open_pw (l_nonce l)) (loop scheme_pw (e_secrets env));
  run _ <- each_last (fun i => each (open_kx l i) (loop (i_name i) (e_recipients env))) (s_kx s);
  each_last (fun i => each (open_ke l i) (loop (i_name i) (e_recipients env))) (s_ke s).

(** ** Wire handshake: core-wire.go *)

Definition wire_st : M wstate := fun r =>
  (match r_wire r with Some w => Ok w | None => Panic end, r).
Definition set_kx (w : wstate) x := mkWire (w_server w) (w_msgno w) (w_last w) (w_send w) (w_recv w) x (w_ke w) (w_state w) (w_new w).
Definition set_ke (w : wstate) x := mkWire (w_server w) (w_msgno w) (w_last w) (w_send w) (w_recv w) (w_kx w) x (w_state w) (w_new w).
Definition set_hs (w : wstate) x := mkWire (w_server w) (w_msgno w) (w_last w) (w_send w) (w_recv w) (w_kx w) (w_ke w) x (w_new w).
Definition set_new (w : wstate) x := mkWire (w_server w) (w_msgno w) (w_last w) (w_send w) (w_recv w) (w_kx w) (w_ke w) (w_state w) x.
Definition set_send (w : wstate) x := mkWire (w_server w) (w_msgno w) (w_last w) x (w_recv w) (w_kx w) (w_ke w) (w_state w) (w_new w).
Definition set_recv (w : wstate) x := mkWire (w_server w) (w_msgno w) (w_last w) (w_send w) x (w_kx w) (w_ke w) (w_state w) (w_new w).
Definition bump (w : wstate) := mkWire (w_server w) (w_msgno w + 1)%N (w_last w) (w_send w) (w_recv w) (w_kx w) (w_ke w) (w_state w) (w_new w).

Definition upd_nth {A} (n : nat) (f : A -> A) (l : list A) : list A :=
  firstn n l ++ match skipn n l with [] => [] | a :: r => f a :: r end.

(** core-wire.go:273-303 generateLocalKeyExchangeSignets. *)
Definition gen_local_kx : M unit :=
  run w <- wire_st;
  each (fun p : nat * kxpair =>
          match kx_own (snd p) with
          | Some _ => ret tt
          | None =>
              run _ <- upd_wire (fun w => set_kx w (upd_nth (fst p)
                         (fun x => mkKx (kx_tool x) (Some None) (kx_peer x)) (w_kx w)));
              run kp <- gen (i_name (kx_tool (snd p)));
              run _ <- upd_wire (fun w => set_kx w (upd_nth (fst p)
                         (fun x => mkKx (kx_tool x) (Some (Some kp)) (kx_peer x)) (w_kx w)));
              add_key (mkSeal [] [] (cr_store_pub cr (i_name (kx_tool (snd p))) (fst kp)))
          end) (index_from 0 (w_kx w)).

(** core-wire.go:305-332 makeSharedKeys. *)
Definition make_shared : M unit :=
  run w <- wire_st;
  each (fun p =>
          match kx_own p, kx_peer p with
          | None, _ | _, None => fail EOther
          | Some own, Some peer =>
              run (pub, _) <- lift (cr_load cr (i_name (kx_tool p)) peer true);
              run k <- shared (kx_tool p) (match own with Some (_, k) => PKey k | None => PNil end) (Some pub);
              add_mat k
          end) (w_kx w).

(** core-wire.go:334-364 generateLocalKeyEncapsulationSignets. *)
Definition gen_local_ke : M unit :=
  run w <- wire_st;
  each (fun p : nat * kepair =>
          match ke_sig (snd p) with
          | KNone =>
              run _ <- upd_wire (fun w => set_ke w (upd_nth (fst p)
                         (fun x => mkKe (ke_tool x) (KOwn None) (ke_seal x)) (w_ke w)));
              run kp <- gen (i_name (ke_tool (snd p)));
              run _ <- upd_wire (fun w => set_ke w (upd_nth (fst p)
                         (fun x => mkKe (ke_tool x) (KOwn (Some kp)) (ke_seal x)) (w_ke w)));
              add_key (mkSeal [] [] (cr_store_pub cr (i_name (ke_tool (snd p))) (fst kp)))
          | _ => ret tt
          end) (index_from 0 (w_ke w)).

(** core-wire.go:366-396 makeAndEncapsulateNewKeys. *)
Definition encap_new : M unit :=
  run w <- wire_st;
  each (fun p =>
          run pub <- match ke_sig p with
                     | KNone => fail EOther
                     | KOwn (Some (pub, _)) => ret pub
                     | KOwn None => run (pub, _) <- lift (cr_load cr (i_name (ke_tool p)) [] false); ret pub
                     | KPeer st => run (pub, _) <- lift (cr_load cr (i_name (ke_tool p)) st true); ret pub
                     end;
          run k <- rand (s_dks s);
          run v <- encap (ke_tool p) (Some pub) k;
          run _ <- add_mat k;
          add_key (mkSeal [] [] v)) (w_ke w).

(** core-wire.go:398-419 unwrapKeys. *)
Definition unwrap_new : M unit :=
  run w <- wire_st;
  each (fun p =>
          match ke_sig p, ke_seal p with
          | KNone, _ | _, None => fail EOther
          | sg, Some v =>
              run k <- unwrap (ke_tool p) (match sg with KOwn (Some (_, k)) => PKey k | _ => PNil end) v;
              add_mat k
          end) (w_ke w).

(** core-wire.go:422-456 burnEphemeralKeys (the BurnKey functions of all tools return nil). *)
Definition burn_pairs (w : wstate) : wstate :=
  set_new (set_ke (set_kx w (map (fun p => mkKx (kx_tool p) None None) (w_kx w)))
             (map (fun p => mkKe (ke_tool p) KNone None) (w_ke w))) [].

(** session-wire.go:22 and 100-102 reKeyNeeded (the difference of two uint64). *)
Definition rekey_after : N := 10000000.
Definition rekey_needed (w : wstate) : bool := (rekey_after <? w_msgno w - w_last w)%N.

(** core-wire.go:92-120 and 236-264: carryover and key derivation.  [sending] picks the
    direction. *)
Definition carry (sending : bool) (w : wstate) := if sending then w_send w else w_recv w.
Definition set_carry (sending : bool) (w : wstate) x := if sending then set_send w x else set_recv w x.

Definition carryover (sending : bool) (nonce : bytes) : M unit :=
  run w <- wire_st;
  run _ <- (if (w_msgno w =? 0)%N
            then run _ <- check (negb (s_dks s =? 0)%Z) EOther;
                 upd_wire (fun w => set_carry sending w (repeat (n2b 0) (Z.to_nat (s_dks s))))
            else add_mat (carry sending w));
  run m <- gets r_mat;
  run _ <- kdf_init nonce m;
  run w <- wire_st;
  run k <- kdf_read (Z.of_nat (length (carry sending w)));
  run _ <- upd_wire (fun w => set_carry sending w k);
  run _ <- (if (w_msgno w =? 0)%N then upd_wire (fun w => set_carry (negb sending) w k) else ret tt);
  upd_wire bump.

(** core-wire.go:19-127 sendHandshakeAndInitKDF; the result is letter.ApplyKeys. *)
Definition send_idle : M unit :=                                    (* 33-46 *)
  run w <- wire_st;
  if (w_msgno w =? 0)%N || (negb (w_server w) && rekey_needed w)
  then run _ <- gen_local_kx; run _ <- gen_local_ke; upd_wire (fun w => set_hs w HAwaitKey)
  else ret tt.

Definition send_handshake (nonce : bytes) : M bool :=
  run w <- wire_st;
  run ab <- match w_state w with
            | HInit => run _ <- closing_material nonce; run _ <- send_idle; ret false
            | HIdle => run _ <- send_idle; ret false
            | HSendKey =>                                           (* 48-84 *)
                run _ <- gen_local_kx;
                run _ <- make_shared;
                run _ <- gen_local_ke;
                run _ <- encap_new;
                run m <- gets r_mat;
                run _ <- upd_wire (fun w => set_hs (set_new w m) HAwaitApply);
                ret false
            | HSendApply =>                                         (* 86-89 *)
                run _ <- each add_mat (w_new w); ret true
            | HAwaitKey | HAwaitApply => ret false
            end;
  run _ <- carryover true nonce;
  run _ <- (if ab then upd_wire burn_pairs else ret tt);
  ret ab.

(** core-wire.go:160-170, 197-207: the values of the first seals become the peers. *)
Definition assign_kx (l : letter) : M unit :=
  run w <- wire_st;
  each (fun p : nat * kxpair =>
          run k <- key_at l;
          run _ <- next_idx;
          upd_wire (fun w => set_kx w (upd_nth (fst p)
             (fun x => mkKx (kx_tool x) (kx_own x) (Some (seal_value k))) (w_kx w))))
       (index_from 0 (w_kx w)).

(** core-wire.go:171-183: skipping seals with an ID; [key_without_id] gives the index
    (None: the loop runs off the end and panics). *)
Fixpoint key_without_id (ks : list seal) (n : nat) : option (nat * seal) :=
  match ks with
  | [] => None
  | k :: ks' => if nonempty (seal_id k) then key_without_id ks' (S n) else Some (n, k)
  end.
Definition assign_ke_signet (l : letter) : M unit :=
  run w <- wire_st;
  each (fun p : nat * kepair =>
          run idx <- gets r_idx;
          match key_without_id (skipn idx (l_keys l)) idx with
          | None => panic
          | Some (n, k) =>
              run _ <- modify (fun r => set_acc r (r_keys r) (r_mat r) (S n));
              upd_wire (fun w => set_ke w (upd_nth (fst p)
                 (fun x => mkKe (ke_tool x) (KPeer (seal_value k)) (ke_seal x)) (w_ke w)))
          end) (index_from 0 (w_ke w)).
(** core-wire.go:208-211. *)
Definition assign_ke_seal (l : letter) : M unit :=
  run w <- wire_st;
  each (fun p : nat * kepair =>
          run k <- key_at l;
          run _ <- next_idx;
          upd_wire (fun w => set_ke w (upd_nth (fst p)
             (fun x => mkKe (ke_tool x) (ke_sig x) (Some (seal_value k))) (w_ke w))))
       (index_from 0 (w_ke w)).

Definition start_index : M unit := modify (fun r => set_acc r (r_keys r) (r_mat r) 0).

Definition recv_idle (l : letter) : M unit :=                       (* 144-186 *)
  if nonempty (l_keys l) then
    run w <- wire_st;
    run _ <- (if nonempty (s_ke s) then ret tt
              else check (length (l_keys l) =? length (w_kx w) + length (w_ke w))%nat EOther);
    run _ <- start_index;
    run _ <- assign_kx l;
    run _ <- assign_ke_signet l;
    upd_wire (fun w => set_hs w HSendKey)
  else ret tt.

(** core-wire.go:130-271 recvHandshakeAndInitKDF. *)
Definition recv_handshake (l : letter) : M unit :=
  run w <- wire_st;
  run b <- match w_state w with
           | HInit => run _ <- opening_material l; run _ <- recv_idle l; ret false
           | HIdle => run _ <- recv_idle l; ret false
           | HAwaitKey =>                                           (* 188-227 *)
               if nonempty (l_keys l) then
                 run _ <- check (length (l_keys l) =? length (w_kx w) + length (w_ke w))%nat EOther;
                 run _ <- start_index;
                 run _ <- assign_kx l;
                 run _ <- assign_ke_seal l;
                 run _ <- make_shared;
                 run _ <- unwrap_new;
                 run m <- gets r_mat;
                 run _ <- upd_wire (fun w => set_hs (set_new w m) HSendApply);
                 ret false
               else ret false
           | HAwaitApply =>                                         (* 229-233 *)
               if l_apply l then run _ <- each add_mat (w_new w); ret true else ret false
           | HSendKey | HSendApply => ret false
           end;
  run _ <- carryover false (l_nonce l);
  if b then upd_wire burn_pairs else ret tt.

(** ** core.go:12-165 Session.Close

    [full]: len(data) == cap(data).  Then the stream ciphers work on the caller's own
    buffer ([r_buf]); the AEADs need room for a tag and allocate. *)
Definition needs_key : bool := nonempty (s_ciph s) || nonempty (s_aead s) || nonempty (s_macs s).
Definition uses_ad : bool := nonempty (s_aead s) || nonempty (s_macs s).

Definition encrypt (full : bool) (data : bytes) : M bytes :=        (* 75-81 *)
  foldT (fun d i => run d' <- cipher i d;
                    run _ <- (if full then modify (fun r => set_buf r d') else ret tt);
                    ret d') data (s_ciph s).

Definition with_mac_hashers {A} (d : bytes) (m : M A) : M A :=      (* 96-105, 280-287 *)
  run _ <- modify (fun r => set_mach r (fed (s_mac_hashers s) (r_mach r) d));
  deferred (fun r => set_mach r (emptied (s_mac_hashers s) (r_mach r))) m.

Definition with_sig_hashers {A} (d : bytes) (m : M A) : M A :=      (* 131-139, 201-209 *)
  run _ <- modify (fun r => set_sigh r (fed (s_sig_hashers s) (r_sigh r) d));
  deferred (fun r => set_sigh r (emptied (s_sig_hashers s) (r_sigh r))) m.

Definition sign_all (l : letter) : M (list seal) :=                 (* 141-161 *)
  foldT (fun acc i =>
           foldT (fun acc sg => run v <- sign i sg; ret (acc ++ [mkSeal (i_name i) (sg_id sg) v]))
                 acc (loop (i_name i) (e_senders env)))
        [] (s_signers s).

Definition close_sign (l : letter) (ad : bytes) : M letter :=       (* 127-162 *)
  if nonempty (s_signers s)
  then with_sig_hashers (l_data l ++ assoc_signing_data l ad)
         (run sigs <- sign_all l; ret (set_sigs l sigs))
  else ret l.

Definition establish (nonce : bytes) : M bool :=                    (* 45-62 *)
  run w <- is_wire;
  if w then send_handshake nonce
  else run _ <- closing_material nonce;
       run m <- gets r_mat;
       run _ <- kdf_init nonce m;
       ret false.

Definition close_session (full : bool) (data : bytes) : M letter :=
  run _ <- modify (fun r => set_buf (set_acc r [] [] 0) data);
  run first <- gets (fun r => match r_wire r with None => true | Some w => (w_msgno w =? 0)%N end);
  run nonce <- rand (nonce_size s);
  match s_kdf s with
  | Some _ =>
      run apply <- establish nonce;
      run keys <- gets r_keys;
      let l := mkLetter (if first then e_version env else 0)%N (if first then e_suite_id env else [])
                 nonce keys [] [] [] apply in
      run _ <- setup;
      deferred reset
        (run d <- encrypt full data;
         let ad := if uses_ad then assoc_data l else [] in
         run d <- foldT (fun d i => aead_seal ad i d) d (s_aead s);
         (if nonempty (s_macs s)
          then with_mac_hashers (d ++ ad)
                 (run m <- macs d ad; close_sign (set_mac (set_data l d) m) ad)
          else close_sign (set_data l d) ad))
  | None =>
      if needs_key then fail EOther
      else close_sign (mkLetter (if first then e_version env else 0)%N (if first then e_suite_id env else [])
                         nonce [] data [] [] false) []
  end.

(** ** core.go:168-320 Session.Open, 323-391 Session.Verify *)

Definition sig_at (l : letter) (n : nat) : M seal :=
  match nth_error (l_sigs l) n with Some v => ret v | None => panic end.

Definition verify_all (l : letter) : M nat :=                       (* 211-231 *)
  foldT (fun n i =>
           foldT (fun n sg => run v <- sig_at l n;
                              run _ <- verify i sg (seal_value v);
                              ret (S n))
                 n (loop (i_name i) (e_senders env)))
        0 (s_signers s).

Definition open_ad (l : letter) : bytes := if uses_ad then assoc_data l else [].

(** The signature part of Open and Verify: the rest of the operation runs inside, since the hashers
    are reset at its end. *)
Definition with_signatures {A} (l : letter) (m : M A) : M A :=
  with_sig_hashers (l_data l ++ assoc_signing_data l (open_ad l))
    (run _ <- check (length (e_senders env) =? length (l_sigs l))%nat EOther;
     run _ <- verify_all l;
     m).

Definition decrypt (d : bytes) : M bytes :=                         (* 311-317 *)
  foldT (fun d i => run d' <- cipher i d;
                    run _ <- modify (fun r => set_buf r (d' ++ skipn (length d') (r_buf r)));
                    ret d') d (rev (s_ciph s)).

Definition open_payload (l : letter) : M bytes :=                   (* 234-319 *)
  match s_kdf s with
  | None => if needs_key then fail EOther else ret (l_data l)
  | Some _ =>
      run w <- is_wire;
      run _ <- (if w then recv_handshake l
                else run _ <- opening_material l;
                     run m <- gets r_mat;
                     kdf_init (l_nonce l) m);
      run _ <- setup;
      deferred reset
        (let body := run d <- foldT (fun d i => aead_open (open_ad l) i d) (l_data l) (rev (s_aead s));
                     decrypt d in
         if nonempty (s_macs s)
         then with_mac_hashers (l_data l ++ open_ad l)
                (run m <- macs (l_data l) (open_ad l);
                 run _ <- check (bytes_eqb (l_mac l) m) EIntegrity;
                 body)
         else body)
  end.

Definition open_session (l : letter) : M bytes :=
  run _ <- modify (fun r => set_buf (set_acc r [] [] 0) (l_data l));
  run w <- is_wire;
  run _ <- (if w then ret tt else check (l_version l =? 1)%N EOther);
  if nonempty (s_signers s) then with_signatures l (open_payload l) else open_payload l.

Definition verify_session (l : letter) : M unit :=
  run _ <- modify (fun r => set_buf (set_acc r [] [] 0) (l_data l));
  run w <- is_wire;
  run _ <- (if w then ret tt else check (l_version l =? 1)%N EOther);
  if nonempty (s_signers s) then with_signatures l (ret tt) else fail EOther.

End Core.
