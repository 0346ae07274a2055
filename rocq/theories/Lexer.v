(** Model of src/lexer.rs. *)
From Verif Require Export Bytes.
Local Open Scope char_scope.
Local Open Scope list_scope.
Local Open Scope nat_scope.

(** lexer.rs:4-13, [struct Lexer].  Positions and line counters are [nat]:
    both are bounded by the length of the input plus one. *)
Record lexer := mkLexer {
  current_line_number : nat;
  stream_position : nat;
  stream : bytes
}.

(** lexer.rs:15-18 *)
Definition is_whitespace (ch : byte) : bool :=
  Ascii.eqb ch " " || Ascii.eqb ch "\" || Ascii.eqb ch TAB.

(** lexer.rs:20-23 *)
Definition is_newline (ch : byte) : bool :=
  Ascii.eqb ch LF || Ascii.eqb ch CR.

(** lexer.rs:25-28 *)
Definition is_whitespace_or_newline (ch : byte) : bool :=
  is_whitespace ch || is_newline ch.

(** lexer.rs:32-38, [Lexer::new] *)
Definition lexer_new (input : bytes) : lexer := mkLexer 1 0 input.

(** lexer.rs:43-45, [Lexer::peek] *)
Definition lexer_peek (lx : lexer) : option byte :=
  nth_error (stream lx) (stream_position lx).

(** lexer.rs:48-56, [Lexer::advance] *)
Definition lexer_advance (lx : lexer) : lexer :=
  let line :=
    match lexer_peek lx with
    | Some ch => if is_newline ch then current_line_number lx + 1 else current_line_number lx
    | None => current_line_number lx
    end in
  mkLexer line (stream_position lx + 1) (stream lx).

(** lexer.rs:62-77, [Lexer::skip_while].  The Rust [loop] is written by
    structural recursion on the part of the stream that is still unread
    ([skipn position stream]); its head is what [peek] sees.
    [skip_while_unfold] in LexerProofs.v proves the loop equation in terms of
    [lexer_peek] and [lexer_advance].  Result: new state and [skipped]. *)
Fixpoint skip_while_loop (predicate : byte -> bool) (unread : bytes) (lx : lexer) (skipped : nat)
  : lexer * nat :=
  match unread with
  | ch :: unread' =>
      if predicate ch
      then skip_while_loop predicate unread' (lexer_advance lx) (skipped + 1)
      else (lx, skipped)
  | [] => (lx, skipped)
  end.

Definition skip_while (predicate : byte -> bool) (lx : lexer) : lexer * nat :=
  skip_while_loop predicate (skipn (stream_position lx) (stream lx)) lx 0.

(** lexer.rs:85-87, [Lexer::skip_unless] *)
Definition skip_unless (not_predicate : byte -> bool) (lx : lexer) : lexer * nat :=
  skip_while (fun ch => negb (not_predicate ch)) lx.

(** lexer.rs:93-98, [Lexer::skip_comment] *)
Definition skip_comment (lx : lexer) : lexer * nat :=
  match lexer_peek lx with
  | Some ch => if Ascii.eqb ch "#" then skip_unless is_newline lx else (lx, 0)
  | None => (lx, 0)
  end.

(** lexer.rs:103-105, [Lexer::skip_whitespace] *)
Definition skip_whitespace (lx : lexer) : lexer * nat := skip_while is_whitespace lx.

(** [slice::get(start..end)]: [None] unless [start <= end <= len]
    (used at lexer.rs:119 and 124). *)
Definition slice_get (s : bytes) (start stop : nat) : option bytes :=
  if (start <=? stop) && (stop <=? length s)
  then Some (firstn (stop - start) (skipn start s))
  else None.

(** lexer.rs:110-131, [Lexer::next_token] *)
Definition lexer_next_token (lx : lexer) : option bytes * lexer :=
  let lx1 := fst (skip_whitespace lx) in
  let lx2 := fst (skip_comment lx1) in
  let start_position := stream_position lx2 in
  match lexer_peek lx2 with
  | Some ch =>
      if is_newline ch then
        let lx3 := lexer_advance lx2 in
        (slice_get (stream lx3) start_position (stream_position lx3), lx3)
      else
        let '(lx3, skipped) :=
          skip_unless (fun ch => is_whitespace_or_newline ch || Ascii.eqb ch "#") lx2 in
        if 0 <? skipped
        then (slice_get (stream lx3) start_position (stream_position lx3), lx3)
        else (None, lx3)
  | None => (None, lx2)
  end.

(** lexer.rs:144-150, [struct PeekableLexer] *)
Record peekable_lexer := mkPeekable {
  inner : lexer;
  cache : option (option bytes)
}.

(** lexer.rs:154-159, [PeekableLexer::new] *)
Definition peekable_new (lx : lexer) : peekable_lexer := mkPeekable lx None.

(** lexer.rs:164-172, [PeekableLexer::next_token].  [from_utf8_unchecked] is
    the identity on bytes; that it is only applied to valid UTF-8 is C05. *)
Definition peekable_next (p : peekable_lexer) : option bytes * peekable_lexer :=
  match cache p with
  | Some token => (token, mkPeekable (inner p) None)
  | None => let '(t, lx) := lexer_next_token (inner p) in (t, mkPeekable lx None)
  end.

(** lexer.rs:178-190, [PeekableLexer::peek] *)
Definition peekable_peek (p : peekable_lexer) : option bytes * peekable_lexer :=
  match cache p with
  | Some token => (token, p)
  | None => let '(t, lx) := lexer_next_token (inner p) in (t, mkPeekable lx (Some t))
  end.
