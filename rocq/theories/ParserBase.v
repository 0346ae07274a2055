(** The computation type in which the two parsers (src/obj.rs and src/mtl.rs)
    are modelled, and the methods the two parsers have in common. *)
From Verif Require Export RustStd Lexer.
Local Open Scope list_scope.

(** How a Rust call can end: [Ok]/[Err] of a [Result], a panic, or (for a loop
    that was not given enough fuel) no result.  [Diverge] is the model's "does
    not terminate"; C01 and C02 prove that it never happens. *)
Inductive panic := PanicIndex | PanicOverflow | PanicAssert.

Inductive outcome (E A : Type) : Type :=
| Ok (a : A)
| Err (e : E)
| Panic (p : panic)
| Diverge.
Arguments Ok {E A} a.
Arguments Err {E A} e.
Arguments Panic {E A} p.
Arguments Diverge {E A}.

(** [struct ParseError], obj.rs:627-635 and mtl.rs:239-247; [K] is the
    [ErrorKind] of the respective module. *)
Record parse_error (K : Type) := mkParseError {
  err_line_number : nat;
  err_kind : K;
  err_message : bytes
}.
Arguments mkParseError {K}.
Arguments err_line_number {K}.
Arguments err_kind {K}.
Arguments err_message {K}.

(** What a parser needs from its lexer: [peek] and [next] (obj.rs:714 and 719;
    mtl.rs:297 and 302).  The parsers are written once for any token source.
    The model of the crate is their instance at [lexer_source], the
    [PeekableLexer]; the instance at a plain list of tokens is a device of the
    proofs. *)
Record token_source := mkTokenSource {
  ts_state : Type;
  ts_peek : ts_state -> option bytes * ts_state;
  ts_next : ts_state -> option bytes * ts_state
}.

(** [Iterator for PeekableLexer], lexer.rs:193-199, forwards to [next_token]. *)
Definition lexer_source : token_source :=
  mkTokenSource peekable_lexer peekable_peek peekable_next.

(** [struct Parser], obj.rs:664-669 and mtl.rs:274-279. *)
Record parser (S : token_source) := mkParser {
  line_number : nat;
  lexer_state : ts_state S
}.
Arguments mkParser {S}.
Arguments line_number {S}.
Arguments lexer_state {S}.

(** [Parser::new], obj.rs:700-705 and mtl.rs:283-288. *)
Definition parser_new (input : bytes) : parser lexer_source :=
  mkParser (S := lexer_source) 1 (peekable_new (lexer_new input)).

(** A method [&mut self -> Result<A, ParseError>], as most of obj.rs:708-1698
    and mtl.rs:291-792. *)
Definition M (S : token_source) (K A : Type) : Type :=
  parser S -> outcome (parse_error K) A * parser S.

(** One round of a Rust loop (obj.rs:852, 975, 1000, 1147, 1329, 1505, 1527, 1544;
    mtl.rs:348, 634 and 779): go on with a new state, or [break]. *)
Inductive step (A B : Type) : Type :=
| Continue (a : A)
| Break (b : B).
Arguments Continue {A B} a.
Arguments Break {A B} b.

Section Base.
Context {S : token_source} {K : Type}.

(** [Ok(a)], for example obj.rs:1549. *)
Definition ret {A} (a : A) : M S K A := fun p => (Ok a, p).

(** Sequencing with the [?] operator, for example obj.rs:811-814. *)
Definition bind {A B} (m : M S K A) (f : A -> M S K B) : M S K B :=
  fun p => match m p with
           | (Ok a, p') => f a p'
           | (Err e, p') => (Err e, p')
           | (Panic x, p') => (Panic x, p')
           | (Diverge, p') => (Diverge, p')
           end.

(** A call that does not return: it panics (obj.rs:679, 884, 890, 1061, 1230,
    1234, 1237 and 1249 can), or a loop uses up its bound. *)
Definition panics {A} (x : panic) : M S K A := fun p => (Panic x, p).
Definition diverge {A} : M S K A := fun p => (Diverge, p).

(** Using a [Result] as a value instead of propagating its error with [?]
    (obj.rs:868-877 and 975). *)
Definition catch {A} (m : M S K A) : M S K (A + parse_error K) :=
  fun p => match m p with
           | (Ok a, p') => (Ok (inl a), p')
           | (Err e, p') => (Ok (inr e), p')
           | (Panic x, p') => (Panic x, p')
           | (Diverge, p') => (Diverge, p')
           end.

(** Propagating such a value (obj.rs:868-877). *)
Definition from_result {A} (r : A + parse_error K) : M S K A :=
  fun p => match r with
           | inl a => (Ok a, p)
           | inr e => (Err e, p)
           end.

(** [loop]/[while] (the places listed at [step]) with a bound on the number of
    rounds. *)
Fixpoint loop {A B} (fuel : nat) (body : A -> M S K (step A B)) (a : A) : M S K B :=
  match fuel with
  | 0 => diverge
  | Datatypes.S fuel' =>
      bind (body a) (fun r => match r with
                              | Continue a' => loop fuel' body a'
                              | Break b => ret b
                              end)
  end.

(** [for x in xs] (obj.rs:679, 689, 1061, 1219, 1222, 1232, 1233 and 1247). *)
Fixpoint for_each {A X} (xs : list X) (body : A -> X -> M S K A) (a : A) : M S K A :=
  match xs with
  | [] => ret a
  | x :: xs' => bind (body a x) (for_each xs' body)
  end.

(** The range [lo..hi] (at the same places and obj.rs:1221 and 1248). *)
Definition range (lo hi : nat) : list nat := seq lo (hi - lo).

(** [v[i]] on a vector or slice (obj.rs:678, 680, 690, 1062, 1234 and 1249). *)
Definition index {A} (v : list A) (i : nat) : M S K A :=
  match nth_error v i with
  | Some x => ret x
  | None => panics PanicIndex
  end.

(** [v.len() - n] on [usize]: a panic in a debug build if it underflows.  In a
    release build the value wraps to a huge number; both places where the crate
    does this (obj.rs:679 and 1061) then use it as the bound of a [for] loop
    whose body indexes the same (too short) vector, hence [PanicIndex]. *)
Definition len_minus {A} (dbg : bool) (v : list A) (n : nat) : M S K nat :=
  if n <=? length v then ret (length v - n)
  else panics (if dbg then PanicOverflow else PanicIndex).

(** [a - b] on [isize] (obj.rs:884 and 886). *)
Definition isize_sub (dbg : bool) (a b : Z) : M S K Z :=
  if in_isize (a - b) then ret (a - b)%Z
  else if dbg then panics PanicOverflow
  else ret (wrap_isize (a - b)).

(** [debug_assert!] (obj.rs:890, 1230 and 1237). *)
Definition debug_assert (dbg : bool) (b : bool) : M S K unit :=
  if dbg && negb b then panics PanicAssert else ret tt.

(** [Parser::error], obj.rs:708-710, mtl.rs:291-293. *)
Definition error {A} (kind : K) (message : bytes) : M S K A :=
  fun p => (Err (mkParseError (line_number p) kind message), p).

(** [Parser::peek], obj.rs:713-715, mtl.rs:296-298. *)
Definition peek : M S K (option bytes) :=
  fun p => let '(t, s) := ts_peek S (lexer_state p) in (Ok t, mkParser (line_number p) s).

(** [Parser::next], obj.rs:718-727, mtl.rs:301-310. *)
Definition next : M S K (option bytes) :=
  fun p =>
    let '(token, s) := ts_next S (lexer_state p) in
    let line :=
      match token with
      | Some val => if bytes_eqb val nl then line_number p + 1 else line_number p
      | None => line_number p
      end in
    (Ok token, mkParser line s).

(** [Parser::advance], obj.rs:730-732, mtl.rs:313-315. *)
Definition advance : M S K unit := bind next (fun _ => ret tt).

End Base.

Arguments step A B : clear implicits.

Notation "x <- m ;; k" := (bind m (fun x => k)) (at level 61, m at next level, right associativity).
Notation "' p <- m ;; k" := (bind m (fun x => match x with p => k end))
  (at level 61, p pattern, m at next level, right associativity).
Notation "m ;;; k" := (bind m (fun _ => k)) (at level 61, right associativity).

(** [t] is [Some(s)] for the given literal: the patterns of the [match]es on
    [self.peek()], for example obj.rs:1330-1441 and mtl.rs:635-705. *)
Definition is_tok (t : option bytes) (s : string) : bool :=
  match t with
  | Some b => bytes_eqb b (lit s)
  | None => false
  end.

(** [t] is [Some("\n")] (obj.rs:852 and 1431, mtl.rs:348). *)
Definition is_nl (t : option bytes) : bool :=
  match t with
  | Some b => bytes_eqb b nl
  | None => false
  end.

Section Newlines.
Context {S : token_source} {K : Type}.

(** [Parser::skip_zero_or_more_newlines], obj.rs:851-855, mtl.rs:347-351. *)
Definition skip_zero_or_more_newlines (fuel : nat) : M S K unit :=
  loop fuel (fun _ : unit =>
    t <- peek ;;
    if is_nl t then advance ;;; ret (Continue tt)
    else ret (Break tt)) tt.

End Newlines.
