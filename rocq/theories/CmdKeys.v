(** cmd/cmd-import-export.go on a directory trust store: the export, backup and import commands.  [Ok] is exit status 0, with the text
    printed; a command that is not given exactly one argument only prints its usage (not modelled). *)
From Verif Require Import Prelude Tools KeyStore Signets TrustStore.

Section Commands.
Context {e : ext}.
Variables (dump : sdata -> option bytes) (undump : bytes -> option sdata).            (* CBOR, of the text formats *)
Variables (edump : edata -> option bytes) (eundump : bytes -> option edata).
Variables (jdump : sdata -> option bytes) (jundump : bytes -> option sdata).          (* JSON, of the files *)
Variables (jedump : edata -> option bytes) (jeundump : bytes -> option edata).
Variable dir : bytes.
Definition fresh (d : sdata) : fsignet e := mkF d None (@SNil e).                     (* a signet as it is loaded from a file *)

(** cmd-import-export.go:45-90 handleExport. *)
Definition cmd_export (w : fs) (id : bytes) : outcome bytes :=
  match dir_get jundump dir w id true with
  | Ok d => export tool_registry dump false (fresh d)
  | Panic => Panic
  | Err _ =>
      match dir_get jundump dir w id false with
      | Ok d => do r <- as_recipient tool_registry (fresh d); export tool_registry dump false r
      | Panic => Panic
      | Err _ =>
          match dir_get_envelope jeundump suite_registry dir w id with
          | Ok v => export_envelope edump false v
          | Panic => Panic
          | Err _ => Err EOther
          end
      end
  end.
(** cmd-import-export.go:92-111 handleBackup: the test is `err != nil`, and then the signet is nil. *)
Definition cmd_backup (w : fs) (id : bytes) : outcome bytes :=
  match dir_get jundump dir w id false with
  | Err _ => Panic                                                                     (* signet.Backup(false) of a nil signet *)
  | Ok _ => Err EOther
  | Panic => Panic
  end.
(** cmd-import-export.go:113-170 handleImport. *)
Definition cmd_import (w : fs) (text : bytes) : outcome fs :=
  if has_prefix text (lit "envelope:") then
    do v <- envelope_from_text eundump text; dir_store_envelope jedump dir w v
  else
    do s <- (if has_prefix text (lit "sender:") then @sender_from_text e tool_registry undump text
             else if has_prefix text (lit "recipient:") then @recipient_from_text e tool_registry undump text
             else if has_prefix text (lit "secret:") then @key_from_text e tool_registry undump text
             else Err EOther);
    dir_store jdump dir w (f_data s).
End Commands.
