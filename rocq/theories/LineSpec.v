(** Texts made of lines, and lines made of words. *)
From Verif Require Export TokenSpec.
Local Open Scope list_scope.

Definition unlines (ls : list bytes) : bytes := flat_map (fun l => l ++ nl) ls.

(** A word: a token that is not a newline. *)
Definition word (w : bytes) : Prop := w <> [] /\ Forall word_byte w.

(** Words with one space between them. *)
Fixpoint unwords (ws : list bytes) : bytes :=
  match ws with
  | [] => []
  | [w] => w
  | w :: ws' => w ++ lit " " ++ unwords ws'
  end.

(** The tokens of lines of words. *)
Definition line_tokens (lines : list (list bytes)) : list bytes := flat_map (fun l => l ++ [nl]) lines.
