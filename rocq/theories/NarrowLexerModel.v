(** The counters of src/lexer.rs where [usize] has [bits] bits: UsizeModel.v has the
    64-bit ones. *)
From Verif Require Export NarrowModel.
Local Open Scope list_scope.

Section Lexer.
Context (bits : Z) (dbg : bool).

(** [a + b] on [usize]: [None] is the panic of a debug build. *)
Definition narrow_word_add (a b : nat) : option nat :=
  if (Z.of_nat (a + b) <=? word_max bits)%Z then Some (a + b)
  else if dbg then None
  else Some (Z.to_nat (Z.of_nat (a + b) mod 2 ^ bits)).

Local Notation "x <-? m ;; k" :=
  (match m with Some x => k | None => None end) (at level 61, m at next level, right associativity).
Local Notation "' p <-? m ;; k" :=
  (match m with Some p => k | None => None end)
  (at level 61, p pattern, m at next level, right associativity).

(** lexer.rs:48-56, [Lexer::advance] *)
Definition narrow_lexer_advance (lx : lexer) : option lexer :=
  line <-? match lexer_peek lx with
           | Some ch => if is_newline ch then narrow_word_add (current_line_number lx) 1
                        else Some (current_line_number lx)
           | None => Some (current_line_number lx)
           end ;;
  position <-? narrow_word_add (stream_position lx) 1 ;;
  Some (mkLexer line position (stream lx)).

(** lexer.rs:62-77, [Lexer::skip_while], by recursion on the unread part as in
    Lexer.v. *)
Fixpoint narrow_skip_while_loop (predicate : byte -> bool) (unread : bytes) (lx : lexer) (skipped : nat)
  : option (lexer * nat) :=
  match unread with
  | ch :: unread' =>
      if predicate ch
      then lx' <-? narrow_lexer_advance lx ;;
           skipped' <-? narrow_word_add skipped 1 ;;
           narrow_skip_while_loop predicate unread' lx' skipped'
      else Some (lx, skipped)
  | [] => Some (lx, skipped)
  end.

Definition narrow_skip_while (predicate : byte -> bool) (lx : lexer) : option (lexer * nat) :=
  narrow_skip_while_loop predicate (skipn (stream_position lx) (stream lx)) lx 0.

(** lexer.rs:85-87, [Lexer::skip_unless] *)
Definition narrow_skip_unless (not_predicate : byte -> bool) (lx : lexer) : option (lexer * nat) :=
  narrow_skip_while (fun ch => negb (not_predicate ch)) lx.

(** lexer.rs:93-98, [Lexer::skip_comment] *)
Definition narrow_skip_comment (lx : lexer) : option (lexer * nat) :=
  match lexer_peek lx with
  | Some ch => if Ascii.eqb ch "#" then narrow_skip_unless is_newline lx else Some (lx, 0)
  | None => Some (lx, 0)
  end.

(** lexer.rs:110-131, [Lexer::next_token] *)
Definition narrow_lexer_next_token (lx : lexer) : option (option bytes * lexer) :=
  '(lx1, _) <-? narrow_skip_while is_whitespace lx ;;
  '(lx2, _) <-? narrow_skip_comment lx1 ;;
  let start_position := stream_position lx2 in
  match lexer_peek lx2 with
  | Some ch =>
      if is_newline ch then
        lx3 <-? narrow_lexer_advance lx2 ;;
        Some (slice_get (stream lx3) start_position (stream_position lx3), lx3)
      else
        '(lx3, skipped) <-?
          narrow_skip_unless (fun ch => is_whitespace_or_newline ch || Ascii.eqb ch "#") lx2 ;;
        if 0 <? skipped
        then Some (slice_get (stream lx3) start_position (stream_position lx3), lx3)
        else Some (None, lx3)
  | None => Some (None, lx2)
  end.

(** lexer.rs:164-172, [PeekableLexer::next_token] *)
Definition narrow_peekable_next (p : peekable_lexer) : option (option bytes * peekable_lexer) :=
  match cache p with
  | Some token => Some (token, mkPeekable (inner p) None)
  | None => '(t, lx) <-? narrow_lexer_next_token (inner p) ;; Some (t, mkPeekable lx None)
  end.

(** lexer.rs:178-190, [PeekableLexer::peek] *)
Definition narrow_peekable_peek (p : peekable_lexer) : option (option bytes * peekable_lexer) :=
  match cache p with
  | Some token => Some (token, p)
  | None => '(t, lx) <-? narrow_lexer_next_token (inner p) ;; Some (t, mkPeekable lx (Some t))
  end.

(** [Parser::next], obj.rs:718-727, mtl.rs:301-310 *)
Definition narrow_next (p : parser lexer_source) : option (option bytes * parser lexer_source) :=
  '(token, s) <-? narrow_peekable_next (lexer_state p) ;;
  line <-? match token with
           | Some val => if bytes_eqb val nl then narrow_word_add (line_number p) 1 else Some (line_number p)
           | None => Some (line_number p)
           end ;;
  Some (token, mkParser (S := lexer_source) line s).

(** [Parser::peek], obj.rs:713-715, mtl.rs:296-298 *)
Definition narrow_peek (p : parser lexer_source) : option (option bytes * parser lexer_source) :=
  '(token, s) <-? narrow_peekable_peek (lexer_state p) ;;
  Some (token, mkParser (S := lexer_source) (line_number p) s).

End Lexer.
