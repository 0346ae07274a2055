(** Lines with blank lines between them. *)
From Verif Require Export LineSpec.
Local Open Scope list_scope.

(** The lines of the first list, with blank lines anywhere. *)
Inductive with_blanks : list (list bytes) -> list (list bytes) -> Prop :=
| blanks_end : with_blanks [] []
| blanks_blank ls ls' : with_blanks ls ls' -> with_blanks ls ([] :: ls')
| blanks_line l ls ls' : with_blanks ls ls' -> with_blanks (l :: ls) (l :: ls').
