(** cmd/cfg-envelope.go:154-180 editEnvelopeSuite: the menu of suites and what becomes of the chosen line. *)
From Coq Require Import Init.Byte.
From Verif Require Import Prelude Requirements Tools Core Wizard Columns.

(** cfg-envelope.go:158-164: the row of a suite. *)
Definition suite_choice_cells (s : suite) : list bytes :=
  [su_id s; lit "provides " ++ req_short (su_provides s); level_cell (su_level s); lit "uses " ++ comma_join (su_tools s); status_cell (su_status s)].
(** cfg-envelope.go:155-172: the options of the prompt. *)
Definition suite_menu (runes : bytes -> nat) (suites : list suite) : list bytes := format_columns runes (map suite_choice_cells suites).
(** cfg-envelope.go:178-179: the first word of the chosen line is the ID, ReloadSuite (envelope.go:118-126) finds the suite.
    [Panic]: strings.Fields finds no word. *)
Definition suite_chosen (sreg : list suite) (line : bytes) : outcome suite :=
  match fields line with [] => Panic | id :: _ => of_option EOther (get_suite sreg id) end.
