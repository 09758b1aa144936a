(** Specification of checksums in text files (C40, C41), independent of the model in Text.v. *)
From Coq Require Import Init.Byte.
From Verif Require Import Prelude.

(** White space: the code points Unicode calls White_Space, as UTF-8. *)
Definition white_space_points : list N :=
  [9; 10; 11; 12; 13; 32; 133; 160; 5760; 8192; 8193; 8194; 8195; 8196; 8197; 8198; 8199; 8200; 8201; 8202; 8232; 8233; 8239; 8287; 12288]%N.
Definition utf8 (n : N) : bytes :=
  (if n <? 128 then [n2b n]
   else if n <? 2048 then [n2b (192 + n / 64); n2b (128 + n mod 64)]
   else [n2b (224 + n / 4096); n2b (128 + n / 64 mod 64); n2b (128 + n mod 64)])%N.
Definition white_spaces : list bytes := map utf8 white_space_points.
(** [blank a]: white space only. *)
Definition blank (a : bytes) : Prop := exists ws, (forall w, In w ws -> In w white_spaces) /\ a = concat ws.
(** [trimmed x]: no white space at either end. *)
Definition trimmed (x : bytes) : Prop := forall p r, In p white_spaces -> x <> p ++ r /\ x <> r ++ p.
(** [x] is [l] without the white space around it. *)
Definition trims_to (l x : bytes) : Prop := trimmed x /\ exists a b, blank a /\ blank b /\ l = a ++ x ++ b.
(** [x] is [l] without the bytes of [set] around it. *)
Definition strips_to (set l x : bytes) : Prop :=
  (exists a b, (forall c, In c a -> In c set) /\ (forall c, In c b -> In c set) /\ l = a ++ x ++ b)
  /\ (forall c r, x = c :: r -> ~ In c set) /\ (forall c r, x = r ++ [c] -> ~ In c set).

(** The lines of a text, with their line breaks; the last one may have none. *)
Definition newline : byte := x0a.
Definition whole_line (l : bytes) : Prop := exists w, ~ In newline w /\ l = w ++ [newline].
Definition lines_of (data : bytes) (ls : list bytes) : Prop :=
  exists whole last, ls = whole ++ last /\ Forall whole_line whole
    /\ (last = [] \/ exists t, last = [t] /\ t <> [] /\ ~ In newline t) /\ data = concat ls.
(** The line reader takes lines of up to 64 KiB, a last line without line break only if it is shorter. *)
Definition short_line (l : bytes) : Prop := (blen l <= 65536 /\ (blen l < 65536 \/ whole_line l))%N.

(** A metadata line of a file with comment sign [sign]. *)
Definition meta_line (sign l : bytes) : Prop := exists r, l = sign ++ lit " jess-" ++ r.
(** [kept] are the lines of [ls] that are no metadata lines. *)
Inductive body_lines (sign : bytes) : list bytes -> list bytes -> Prop :=
| body_nil : body_lines sign [] []
| body_meta l ls kept : meta_line sign l -> body_lines sign ls kept -> body_lines sign (l :: ls) kept
| body_keep l ls kept : ~ meta_line sign l -> body_lines sign ls kept -> body_lines sign (l :: ls) (l :: kept).
(** What a checksum is about: the text without metadata lines and without white space around it. *)
Definition content_of (sign data content : bytes) : Prop :=
  exists ls kept, lines_of data ls /\ body_lines sign ls kept /\ trims_to (concat kept) content.
(** [l] is a line with a checksum, whose text is [t]. *)
Definition checksum_line (sign l t : bytes) : Prop :=
  meta_line sign l /\ exists x m r u, l = sign ++ x /\ trims_to x m /\ m = lit "jess-checksum" ++ r /\ trims_to r u /\ strips_to (lit ":= ") u t.
Definition has_checksum (sign data t : bytes) : Prop := exists ls l, lines_of data ls /\ In l ls /\ checksum_line sign l t.
