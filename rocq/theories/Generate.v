(** cmd/cmd-generate.go and newSignet in cmd/cfg-signet.go:15-141: the command `generate` on a directory trust store.
    Answers to prompts as in [Wizard]; randomness, key generation, the clock and failing writes are parameters. *)
From Coq Require Import Init.Byte.
From Verif Require Import Prelude Encodings Tools Letter Session KeyStore Signets TrustStore Wizard.
From Verif Require Text.

(** satori/go.uuid v1.2.0: SetVersion(V4), SetVariant(VariantRFC4122), String; signet.go:249-261 AssignUUID. *)
Definition set_version4 (b : byte) : byte := n2b (64 + b2n b mod 16).
Definition set_variant (b : byte) : byte := n2b (128 + b2n b mod 64).
Fixpoint set_at (i : nat) (f : byte -> byte) (l : bytes) : bytes :=
  match l, i with [], _ => [] | b :: r, O => f b :: r | b :: r, S i => b :: set_at i f r end.
Definition uuid_string (u : bytes) : bytes :=
  hex_encode (firstn 4 u) ++ [x2d] ++ hex_encode (firstn 2 (skipn 4 u)) ++ [x2d] ++ hex_encode (firstn 2 (skipn 6 u)) ++ [x2d]
  ++ hex_encode (firstn 2 (skipn 8 u)) ++ [x2d] ++ hex_encode (skipn 10 u).
Definition uuid_of (u : bytes) : bytes := uuid_string (set_at 8 set_variant (set_at 6 set_version4 u)).

(** The flags of the command and the global ones it uses: cmd-generate.go:9-14, cmd/main.go:52-53. *)
Record flags := mkFlags { g_name : bytes; g_scheme : bytes; g_textonly : bool; g_symsize : Z; g_seclevel : Z }.

Section Generate.
Context {e : ext}.
Variables (dump : sdata -> option bytes).                    (* CBOR, of the text formats *)
Variables (jdump : sdata -> option bytes).                   (* JSON, of the files *)
Variable dir : bytes.
Variable rand : nat -> nat -> option bytes.                  (* request, size: jess.RandomBytes and Random() *)
Variable gen : bytes -> Z -> option (pubkey e * prvkey e).   (* StaticLogic.GenerateKey of a tool; bits for RSA *)
Variable now : bytes.                                        (* SignetInfo.Created *)
Variable writes : bool -> bool.                              (* whether writing the file of a signet (recipient: true) works *)

(** cfg-signet.go:17-27 and 29-49. *)
Definition ask_name (f : flags) (rs : list reply) : outcome (bytes * list reply) :=
  match Text.trim_space (g_name f) with
  | [] => match rs with Choose (b :: n) :: rs' => Ok (b :: n, rs') | _ => Err EOther end
  | n => Ok (n, rs)
  end.
Definition ask_scheme (f : flags) (rs : list reply) : outcome (bytes * list reply) :=
  match Text.trim_space (g_scheme f) with
  | [] => match rs with
          | Choose line :: rs' => match fields line with [] => Panic | s :: _ => Ok (s, rs') end
          | _ => Err EOther
          end
  | s => Ok (s, rs)
  end.
(** rsa-keys.go:87-104 GenerateKey outside of a session: helper.go:95-100, defaults.go:25-28, cmd/main.go:101-103. *)
Definition rsa_level (f : flags) : Z := if (0 <? g_seclevel f)%Z then g_seclevel f else 128.
(** jess.RandomBytes: make([]byte, n) of a negative n panics. *)
Definition random_bytes (i : nat) (n : Z) : outcome bytes :=
  if (n <? 0)%Z then Panic else match rand i (Z.to_nat n) with Some b => if (length b =? Z.to_nat n)%nat then Ok b else Err EOther | None => Err EOther end.
(** cfg-signet.go:51-102, with signet.go:82-108 GenerateKey and 216-229 StoreKey. *)
Definition new_base (scheme key : bytes) : sdata := mkData 1 [] scheme key false None None None.
Definition make_key (f : flags) (scheme : bytes) : outcome (fsignet e) :=
  if bytes_eqb scheme scheme_pw then Ok (mkF (new_base scheme_pw []) None SNil)
  else if bytes_eqb scheme scheme_key then
    if (g_symsize f =? 0)%Z then Err EOther
    else do k <- random_bytes 0 (g_symsize f); Ok (mkF (new_base scheme_key k) None SNil)
  else
    do t <- tools_get tool_registry scheme;
    if has_option t ONeedsSecurityLevel && (g_seclevel f <=? 0)%Z then Err EOther
    else if has_option t ONeedsDefaultKeySize && (g_symsize f <=? 0)%Z then Err EOther
    else match t_purpose t with
         | PKeyExchange | PKeyEncapsulation | PSigning =>
             match gen (t_name t) (rsa_size_for_level (rsa_level f)) with
             | Some (p, k) => store_signet tool_registry (mkF (new_base (t_name t) []) (Some p) k)
             | None => Err EOther
             end
         | _ => Err EOther
         end.
(** cfg-signet.go:104-111. *)
Definition with_id_info (s : fsignet e) (id name : bytes) : fsignet e :=
  let d := f_data s in mkF (mkData (d_version d) id (d_scheme d) (d_key d) (d_public d) (d_prot d) (Some (mkInfo name now)) (d_sig d)) (f_pub s) (f_prv s).
Definition draft (f : flags) (rs : list reply) : outcome (fsignet e) :=                       (* 17-116 *)
  do (name, rs1) <- ask_name f rs; do (scheme, _) <- ask_scheme f rs1; do s <- make_key f scheme;
  do u <- of_option EOther (rand 1 16); Ok (with_id_info s (uuid_of u) name).
Definition put (w : fs) (d : sdata) : outcome fs := if writes (d_public d) then dir_store jdump dir w d else Err EOther.
Definition new_signet (f : flags) (save : bool) (rs : list reply) (w : fs) : outcome (fsignet e) * fs :=
  match draft f rs with
  | Ok s =>
      if save then
        match put w (f_data s) with                                                            (* 118-123 *)
        | Ok w1 =>
            if bytes_eqb (d_scheme (f_data s)) scheme_pw || bytes_eqb (d_scheme (f_data s)) scheme_key then (Ok s, w1)
            else match (do r <- as_recipient tool_registry s; do r' <- store_signet tool_registry r; put w1 (f_data r')) with   (* 129-141 *)
                 | Ok w2 => (Ok s, w2)
                 | Err x => (Err x, w1)
                 | Panic => (Panic, w1)
                 end
        | Err x => (Err x, w)
        | Panic => (Panic, w)
        end
      else (Ok s, w)
  | Err x => (Err x, w)
  | Panic => (Panic, w)
  end.
(** cmd-generate.go:27-65: what is printed (backup and export), and the files. *)
Definition generate (f : flags) (rs : list reply) (w : fs) : outcome (option (bytes * bytes)) * fs :=
  match new_signet f (negb (g_textonly f)) rs w with
  | (Ok s, w') =>
      if g_textonly f then
        (do b <- backup tool_registry dump false s; do r <- as_recipient tool_registry s; do r' <- store_signet tool_registry r;
         do x <- export tool_registry dump false r'; Ok (Some (b, x)), w')
      else (Ok None, w')
  | (Err x, w') => (Err x, w')
  | (Panic, w') => (Panic, w')
  end.
End Generate.
