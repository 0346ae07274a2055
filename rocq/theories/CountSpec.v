(** How much work a parse is: the parsers of the model are written for any
    token source, so they can be run over one that counts how often it is asked
    for a token. *)
From Verif Require Import ParserBase.
Local Open Scope list_scope.

(** The lexer that the parsers use ([PeekableLexer], lexer.rs:147-199) with a
    counter of the calls of [peek] and of [next]. *)
Definition counted (S : token_source) : token_source :=
  mkTokenSource (ts_state S * nat)
    (fun s => let '(t, s') := ts_peek S (fst s) in (t, (s', 1 + snd s)))
    (fun s => let '(t, s') := ts_next S (fst s) in (t, (s', 1 + snd s))).

(** A new parser, with no calls counted. *)
Definition counted_new (input : bytes) : parser (counted lexer_source) :=
  mkParser (S := counted lexer_source) 1 (peekable_new (lexer_new input), 0).

(** The calls counted so far. *)
Definition calls {S : token_source} (p : parser (counted S)) : nat := snd (lexer_state p).

(** The number of bytes the lexer has gone over. *)
Definition bytes_read (p : parser (counted lexer_source)) : nat :=
  stream_position (inner (fst (lexer_state p))).
