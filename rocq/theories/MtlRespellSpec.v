(** MTL texts that write the same numbers in different ways.  Independent of the
    model. *)
From Verif Require Export SameSpec MtlSpec.
Local Open Scope list_scope.

(** The words of two lines: the same line, or one statement with the same
    numbers. *)
Inductive respelled_line : list bytes -> list bytes -> Prop :=
| line_same l : ~ In nl l -> respelled_line l l
| line_color f xs ys : length xs = 3 -> Forall2 same_float xs ys -> respelled_line (color_word f :: xs) (color_word f :: ys)
| line_number f t t' : same_float t t' -> respelled_line [number_word f; t] [number_word f; t']
| line_illum t t' : same_natural t t' -> respelled_line [lit "illum"; t] [lit "illum"; t'].

(** Two texts, line by line. *)
Inductive respelled : list bytes -> list bytes -> Prop :=
| respelled_last l l' : respelled_line l l' -> respelled l l'
| respelled_more l l' ts ts' : respelled_line l l' -> respelled ts ts' ->
    respelled (l ++ nl :: ts) (l' ++ nl :: ts').
