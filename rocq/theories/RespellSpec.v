(** Texts that write the same numbers in different ways.  Independent of the
    model. *)
From Verif Require Export SameSpec ObjErrorSpec.
Local Open Scope list_scope.

(** References: the parts between the slashes are the same numbers, or absent. *)
Definition same_part (p p' : bytes) : Prop := (p = [] /\ p' = []) \/ same_integer p p'.
Definition same_reference (t t' : bytes) : Prop :=
  exists ps ps', parts_of t ps /\ parts_of t' ps' /\ Forall2 same_part ps ps'.

(** The words of two lines: the same line, or one statement with the same
    numbers. *)
Inductive respelled_line : list bytes -> list bytes -> Prop :=
| line_same l : ~ In nl l -> respelled_line l l
| line_v xs ys : 3 <= length xs <= 4 -> Forall2 same_float xs ys -> respelled_line (lit "v" :: xs) (lit "v" :: ys)
| line_vt xs ys : 1 <= length xs <= 3 -> Forall2 same_float xs ys -> respelled_line (lit "vt" :: xs) (lit "vt" :: ys)
| line_vn xs ys : length xs = 3 -> Forall2 same_float xs ys -> respelled_line (lit "vn" :: xs) (lit "vn" :: ys)
| line_p xs ys : Forall2 same_integer xs ys -> respelled_line (lit "p" :: xs) (lit "p" :: ys)
| line_l xs ys : Forall2 same_reference xs ys -> respelled_line (lit "l" :: xs) (lit "l" :: ys)
| line_f xs ys : Forall2 same_reference xs ys -> respelled_line (lit "f" :: xs) (lit "f" :: ys)
| line_s t t' : same_natural t t' -> respelled_line [lit "s"; t] [lit "s"; t'].

(** Two texts, line by line. *)
Inductive respelled : list bytes -> list bytes -> Prop :=
| respelled_last l l' : respelled_line l l' -> respelled l l'
| respelled_more l l' ts ts' : respelled_line l l' -> respelled ts ts' ->
    respelled (l ++ nl :: ts) (l' ++ nl :: ts').
