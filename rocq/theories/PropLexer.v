(** Properties of the lexer: C05-C08, C28. *)
From Verif Require Import ObjModel MtlModel TokenSpec LexerProofs LayoutProofs TotalProofs ExampleText.
Local Open Scope char_scope.
Local Open Scope list_scope.

(** * C05 *)

(** Every token handed to [str::from_utf8_unchecked] is valid UTF-8. *)
Theorem C05_tokens_are_utf8 : forall input ops t,
  valid_utf8 input ->
  In (Some t) (lexer_answers (peekable_new (lexer_new input)) ops) ->
  valid_utf8 t.
Proof. exact lexer_answers_utf8. Qed.
Print Assumptions C05_tokens_are_utf8.

(** A text with a two-byte and a three-byte character; its second token. *)
Definition utf8_example : bytes := lit "o " ++ ["195"; "169"; "226"; "130"; "172"] ++ nl.

Example C05_hypothesis_met : valid_utf8 utf8_example.
Proof.
  apply (valid_char [_]); [constructor; unfold byte_in; cbn; lia|].
  apply (valid_char [_]); [constructor; unfold byte_in; cbn; lia|].
  apply (valid_char [_; _]); [constructor; unfold byte_in; cbn; lia|].
  apply (valid_char [_; _; _]); [apply utf8_3; unfold byte_in; cbn; lia|].
  apply (valid_char [_]); [constructor; unfold byte_in; cbn; lia|].
  constructor.
Qed.

Example C05_example :
  lexer_answers (peekable_new (lexer_new utf8_example)) [Peek; Next; Peek; Next; Next; Next] =
  [Some (lit "o"); Some (lit "o"); Some ["195"; "169"; "226"; "130"; "172"];
   Some ["195"; "169"; "226"; "130"; "172"]; Some nl; None].
Proof. vm_compute. reflexivity. Qed.

(** * C06 *)

(** The answers of the lexer to any sequence of [peek] and [next] calls are the
    answers of the declared token sequence; every text has exactly one. *)
Theorem C06_tokens_are_the_declared_ones : forall input,
  exists ts,
    tokenizes input ts /\
    (forall ts', tokenizes input ts' -> ts' = ts) /\
    forall ops, lexer_answers (peekable_new (lexer_new input)) ops = list_answers ts ops.
Proof.
  exact (fun input => ex_intro _ (lex input)
    (conj (lex_tokenizes input)
       (conj (fun ts' H => tokenizes_det input ts' (lex input) H (lex_tokenizes input))
          (fun ops => lexer_answers_spec input (lex input) ops (lex_tokenizes input))))).
Qed.
Print Assumptions C06_tokens_are_the_declared_ones.

Example C06_example :
  tokenizes (lit " f 1/2\ 3#x" ++ nl ++ lit "#") [lit "f"; lit "1/2"; lit "3"; nl].
Proof. apply tokenizes_iff. vm_compute. reflexivity. Qed.

(** * C07 *)

Theorem C07_whitespace_is_irrelevant : forall before blank1 blank2 after,
  Forall separator blank1 -> Forall separator blank2 -> blank1 <> [] -> blank2 <> [] ->
  (forall dbg, ObjModel.parse dbg (before ++ blank1 ++ after) = ObjModel.parse dbg (before ++ blank2 ++ after)) /\
  MtlModel.parse (before ++ blank1 ++ after) = MtlModel.parse (before ++ blank2 ++ after).
Proof.
  exact (fun a w1 w2 b H1 H2 N1 N2 =>
    conj (fun dbg => parse_same_tokens dbg _ _ (lex_whitespace a w1 w2 b H1 H2 N1 N2))
         (mtl_parse_same_tokens _ _ (lex_whitespace a w1 w2 b H1 H2 N1 N2))).
Qed.
Print Assumptions C07_whitespace_is_irrelevant.

(** Blanks in front of the end of a line or of the text may also be removed
    altogether. *)
Theorem C07_trailing_whitespace_is_irrelevant : forall before blank after,
  Forall separator blank -> starts_with line_end after ->
  (forall dbg, ObjModel.parse dbg (before ++ blank ++ after) = ObjModel.parse dbg (before ++ after)) /\
  MtlModel.parse (before ++ blank ++ after) = MtlModel.parse (before ++ after).
Proof.
  exact (fun a w b H1 H2 =>
    conj (fun dbg => parse_same_tokens dbg _ _ (lex_trailing_blank a w b H1 H2))
         (mtl_parse_same_tokens _ _ (lex_trailing_blank a w b H1 H2))).
Qed.
Print Assumptions C07_trailing_whitespace_is_irrelevant.

Example C07_example :
  Forall separator [" "; TAB; "\"] /\
  exists set,
    ObjModel.parse true (lit "v 0 0 1" ++ nl ++ lit "p" ++ [" "; TAB; "\"] ++ lit "1") = Ok set /\
    ObjModel.parse true (lit "v 0 0 1" ++ nl ++ lit "p" ++ [" "] ++ lit "1") = Ok set /\
    ObjModel.parse true (lit "v 0 0 1" ++ nl ++ lit "p" ++ [] ++ lit "1") <> Ok set.
Proof.
  split; [repeat apply Forall_cons; unfold separator; auto|].
  eexists. split; [vm_compute; reflexivity|]. split; [vm_compute; reflexivity|].
  vm_compute. discriminate.
Qed.

(** * C08 *)

Theorem C08_comments_are_invisible : forall before comment after,
  Forall (fun c => ~ line_end c) comment -> starts_with line_end after ->
  (forall dbg, ObjModel.parse dbg (before ++ "#" :: comment ++ after) = ObjModel.parse dbg (before ++ after)) /\
  MtlModel.parse (before ++ "#" :: comment ++ after) = MtlModel.parse (before ++ after).
Proof.
  exact (fun a t b H1 H2 =>
    conj (fun dbg => parse_same_tokens dbg _ _ (lex_comment a t b H1 H2))
         (mtl_parse_same_tokens _ _ (lex_comment a t b H1 H2))).
Qed.
Print Assumptions C08_comments_are_invisible.

Example C08_example :
  exists set,
    ObjModel.parse true (text "v 0 0 1#v 5 5 5|# o nothing|p 1|") = Ok set /\
    ObjModel.parse true (text "v 0 0 1||p 1|") = Ok set.
Proof. eexists. split; vm_compute; reflexivity. Qed.

(** * C28 *)

(** The expectation of the OBJ format: a backslash in front of a newline joins
    the two lines. *)
Theorem C28_continuation_refuted :
  ~ (forall before after,
       ObjModel.parse false (before ++ ["\"] ++ nl ++ after) =
       ObjModel.parse false (before ++ [" "] ++ after)).
Proof.
  intro H. specialize (H (text "v 0 0 0|" ++ lit "p 1 ") (lit "1")).
  vm_compute in H. discriminate H.
Qed.
Print Assumptions C28_continuation_refuted.

(** What holds instead: a backslash is a space, wherever it is. *)
Theorem C28_backslash_is_a_space : forall before after,
  (forall dbg, ObjModel.parse dbg (before ++ "\" :: after) = ObjModel.parse dbg (before ++ " " :: after)) /\
  MtlModel.parse (before ++ "\" :: after) = MtlModel.parse (before ++ " " :: after).
Proof.
  exact (fun a b =>
    C07_whitespace_is_irrelevant a ["\"] [" "] b
      (Forall_cons "\" (or_intror (or_introl eq_refl)) (Forall_nil _))
      (Forall_cons " " (or_introl eq_refl) (Forall_nil _))
      (fun H => match H with end) (fun H => match H with end)).
Qed.
Print Assumptions C28_backslash_is_a_space.

Example C28_example :
  exists set,
    ObjModel.parse false (text "v 0 0 1|v\1\2\3|l\1\2|") = Ok set /\ objects set <> [].
Proof. eexists. split; [vm_compute; reflexivity|discriminate]. Qed.
