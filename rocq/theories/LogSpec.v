(** Which tokens a parser asks for: the parsers of the model are written for any
    token source, so they can be run over one that keeps a record. *)
From Verif Require Import ParserBase TokenSpec.
Local Open Scope char_scope.
Local Open Scope list_scope.
Local Open Scope nat_scope.

(** The number of bytes the lexer has gone over. *)
Definition place (s : ts_state lexer_source) : nat := stream_position (inner s).

Definition noted (t : option bytes) (s : ts_state lexer_source) (l : list (bytes * nat)) : list (bytes * nat) :=
  match t with
  | Some b => (b, place s) :: l
  | None => l
  end.

(** The lexer that the parsers use with a record, the last entry first: the
    tokens that [peek] and [next] have answered, each with the number of bytes
    the lexer had gone over after the call. *)
Definition logged : token_source :=
  mkTokenSource (ts_state lexer_source * list (bytes * nat))
    (fun s => let '(t, s') := ts_peek lexer_source (fst s) in (t, (s', noted t s' (snd s))))
    (fun s => let '(t, s') := ts_next lexer_source (fst s) in (t, (s', noted t s' (snd s)))).

(** A new parser, with an empty record. *)
Definition logged_new (input : bytes) : parser logged :=
  mkParser (S := logged) 1 (peekable_new (lexer_new input), []).

(** The record, the first entry first. *)
Definition answers (p : parser logged) : list (bytes * nat) := rev (snd (lexer_state p)).

(** [placed n s ps]: the tokens of the text [s], which stands at [n], and where
    each of them ends. *)
Inductive placed : nat -> bytes -> list (bytes * nat) -> Prop :=
| placed_end n : placed n [] []
| placed_separator n c s ps :
    separator c -> placed (S n) s ps -> placed n (c :: s) ps
| placed_line_end n c s ps :
    line_end c -> placed (S n) s ps -> placed n (c :: s) (([c], S n) :: ps)
| placed_comment n x s ps :
    Forall (fun c => ~ line_end c) x -> starts_with line_end s ->
    placed (n + S (length x)) s ps -> placed n ("#" :: x ++ s) ps
| placed_word n w s ps :
    w <> [] -> Forall word_byte w -> starts_with (fun c => ~ word_byte c) s ->
    placed (n + length w) s ps -> placed n (w ++ s) ((w, n + length w) :: ps).

(** [repeated n ts l]: [l] goes through [ts] from the front, without skipping or
    going back, and has each entry at least once and at most [n] times. *)
Inductive repeated {A} (n : nat) : list A -> list A -> Prop :=
| repeated_stop ts : repeated n ts []
| repeated_token k t ts l : 1 <= k -> k <= n -> repeated n ts l -> repeated n (t :: ts) (repeat t k ++ l).

(** The bytes of a list of tokens. *)
Fixpoint volume (l : list bytes) : nat :=
  match l with
  | [] => 0
  | t :: r => length t + volume r
  end.
