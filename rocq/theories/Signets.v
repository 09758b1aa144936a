(** signet.go and import_export.go (and the serialisation part of envelope.go): whole signets and envelopes, their
    serialised forms and the text format.  The dsd package (CBOR) is a pair of functions.  The tool a signet caches is
    the one of its scheme; burning, UUIDs and the unfinished Verify are left out. *)
From Verif Require Import Prelude Container Encodings Tools Letter Session KeyStore.

(** signet.go:24-37, the serialised fields.  A Protection envelope is opaque. *)
Record sdata := mkData {
  d_version : N; d_id : bytes; d_scheme : bytes; d_key : bytes; d_public : bool;
  d_prot : option bytes; d_info : option sinfo; d_sig : option letter }.
(** signet.go:24-43 with the loaded keys. *)
Record fsignet (e : ext) := mkF { f_data : sdata; f_pub : option (pubkey e); f_prv : prvkey e }.
Arguments mkF {e}. Arguments f_data {e}. Arguments f_pub {e}. Arguments f_prv {e}.
(** envelope.go:13-37, the serialised fields. *)
Record edata := mkEnv {
  ev_version : N; ev_name : bytes; ev_suite : bytes; ev_secrets : list sdata; ev_senders : list sdata; ev_recipients : list sdata; ev_level : Z }.

Definition set_key (d : sdata) (key : bytes) (public : bool) : sdata :=
  mkData (d_version d) (d_id d) (d_scheme d) key public (d_prot d) (d_info d) (d_sig d).

(** strings.HasPrefix. *)
Fixpoint has_prefix (s p : bytes) : bool :=
  match p, s with [], _ => true | x :: p', y :: s' => byte_eqb x y && has_prefix s' p' | _, [] => false end.
Definition is_colon (b : byte) : bool := byte_eqb b Coq.Init.Byte.x3a.
(** splitted[len(splitted)-1] of strings.Split(s, ":"): what follows the last colon. *)
Fixpoint last_part (acc s : bytes) : bytes :=
  match s with [] => rev acc | b :: r => if is_colon b then last_part [] r else last_part (b :: acc) r end.

(** import_export.go:189-195 toTextFormatString; bytes of a character outside ASCII are all replaced. *)
Definition in_range (lo hi : N) (b : byte) : bool := ((lo <=? b2n b) && (b2n b <=? hi))%N.
Definition is_upper : byte -> bool := in_range 65 90.
Definition is_alnum (b : byte) : bool := is_upper b || in_range 97 122 b || in_range 48 57 b.
Definition dash : byte := Coq.Init.Byte.x2d.
Fixpoint dashed (run : bool) (s : bytes) : bytes :=
  match s with
  | [] => []
  | b :: r => if is_alnum b then b :: dashed false r else if run then dashed true r else dash :: dashed true r
  end.
Fixpoint drop_dash (s : bytes) : bytes := match s with b :: r => if byte_eqb b dash then drop_dash r else s | [] => [] end.
Definition lower (b : byte) : byte := if is_upper b then n2b (b2n b + 32) else b.
Definition to_text_string (s : bytes) : bytes := map lower (rev (drop_dash (rev (drop_dash (dashed false s))))).
Definition colon : bytes := lit ":".

Section Signets.
Context {e : ext}.
Variables (reg : list tool).
Variables (dump : sdata -> option bytes) (undump : bytes -> option sdata).        (* dsd.Dump(signet, CBOR), dsd.Load *)
Variables (edump : edata -> option bytes) (eundump : bytes -> option edata).

(** signet.go:169-187 LoadKey and 201-213 loadTool. *)
Definition load_signet (s : fsignet e) : outcome (fsignet e) :=
  match f_pub s with
  | Some _ => Ok s
  | None =>
      match d_prot (f_data s) with
      | Some _ => Err EProtected
      | None => do t <- tools_get reg (d_scheme (f_data s));
                do (p, k) <- load_keys (t_name t) (d_key (f_data s)) (d_public (f_data s));
                Ok (mkF (f_data s) (Some p) k)
      end
  end.
(** signet.go:216-229 StoreKey.  Without a loaded public key its interface is nil: of no type. *)
Definition store_signet (s : fsignet e) : outcome (fsignet e) :=
  match d_key (f_data s) with
  | _ :: _ => Ok s
  | [] => do t <- tools_get reg (d_scheme (f_data s));
          match f_pub s with
          | Some p => do (key, public) <- store_keys (t_name t) p (f_prv s);
                      Ok (mkF (set_key (f_data s) key public) (f_pub s) (f_prv s))
          | None => Err EOther
          end
  end.
(** signet.go:138-166 AsRecipient. *)
Definition as_recipient (s : fsignet e) : outcome (fsignet e) :=
  if bytes_eqb (d_scheme (f_data s)) scheme_key || bytes_eqb (d_scheme (f_data s)) scheme_pw then Err EOther else
  do l <- load_signet s;
  Ok (mkF (mkData (d_version (f_data s)) (d_id (f_data s)) (d_scheme (f_data s)) [] true None (d_info (f_data s)) None) (f_pub l) SNil).

(** signet.go:264-277 ToBytes, 297-306 ToBase58.  The signet with its key stored is the second result. *)
Definition to_base58 (s : fsignet e) : outcome (bytes * fsignet e) :=
  do s' <- store_signet s;
  match dump (f_data s') with Some b => Ok (b58_encode b, s') | None => Err EOther end.
(** signet.go:280-294 SignetFromBytes, 309-318 SignetFromBase58. *)
Definition from_base58 (t : bytes) : outcome (fsignet e) :=
  do b <- b58_decode t;
  match undump b with
  | Some d => load_signet (mkF d None SNil)
  | None => Err EOther
  end.

(** import_export.go:50-96 toTextFormat. *)
Definition to_text (short : bool) (s : fsignet e) : outcome bytes :=
  do (b58, s') <- to_base58 s;
  let d := f_data s' in
  do (keyword, comment) <-
    (if bytes_eqb (d_scheme d) scheme_pw then Err EOther
     else if bytes_eqb (d_scheme d) scheme_key then
       (if d_public d then Err EOther else Ok (lit "secret", lit "symmetric-key"))
     else if d_public d then Ok (lit "recipient", lit "public-" ++ to_text_string (d_scheme d) ++ lit "-key")
     else Ok (lit "sender", lit "private-" ++ to_text_string (d_scheme d) ++ lit "-key"));
  if short then Ok (keyword ++ colon ++ b58)
  else match d_info d with
       | None => Panic                                     (* signet.Info.Name with a nil Info *)
       | Some i => Ok (keyword ++ colon ++ comment ++ colon ++ to_text_string (in_name i) ++ colon ++ b58)
       end.
(** import_export.go:26-37 Export, 40-48 Backup. *)
Definition export (short : bool) (s : fsignet e) : outcome bytes :=
  if d_public (f_data s) then to_text short s else do r <- as_recipient s; to_text short r.
Definition backup (short : bool) (s : fsignet e) : outcome bytes :=
  if d_public (f_data s) then Err EOther else to_text short s.
(** import_export.go:127-169: KeyFromTextFormat, SenderFromTextFormat, RecipientFromTextFormat, which differ in the prefix. *)
Definition from_text (prefix t : bytes) : outcome (fsignet e) :=
  if has_prefix t prefix then from_base58 (last_part [] t) else Err EOther.
Definition key_from_text := from_text (lit "secret:").
Definition sender_from_text := from_text (lit "sender:").
Definition recipient_from_text := from_text (lit "recipient:").

(** envelope.go:279-301 CleanSignets. *)
Definition reference (d : sdata) : sdata := mkData (d_version d) (d_id d) (d_scheme d) [] false None None None.
Definition clean (v : edata) : edata :=
  mkEnv (ev_version v) (ev_name v) (ev_suite v) (map reference (ev_secrets v)) (map reference (ev_senders v)) (map reference (ev_recipients v)) (ev_level v).
(** envelope.go:304-315 ToBytes, 330-339 ToBase58; import_export.go:99-124 Export. *)
Definition export_envelope (short : bool) (v : edata) : outcome bytes :=
  match edump (clean (clean v)) with
  | None => Err EOther
  | Some b => if short then Ok (lit "envelope" ++ colon ++ b58_encode b)
              else Ok (lit "envelope" ++ colon ++ ev_suite v ++ colon ++ ev_name v ++ colon ++ b58_encode b)
  end.
(** import_export.go:172-184 EnvelopeFromTextFormat, envelope.go:318-327 and 342-351. *)
Definition envelope_from_text (t : bytes) : outcome edata :=
  if has_prefix t (lit "envelope:")
  then do b <- b58_decode (last_part [] t); of_option EOther (eundump b)
  else Err EOther.
End Signets.
