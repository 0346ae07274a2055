(** The parsers run over the lexer exactly as they run over the list of tokens;
    they run alike with any sufficient fuel, and alike in both build modes. *)
From Verif Require Import ObjModel MtlModel TokenSpec LexerProofs RelProofs.
Local Open Scope list_scope.

(** A token source that is just the list of the remaining tokens. *)
Definition list_source : token_source :=
  mkTokenSource (list bytes)
    (fun l => (hd_error l, l))
    (fun l => (hd_error l, tl l)).

Definition list_parser (line : nat) (ts : list bytes) : parser list_source :=
  mkParser (S := list_source) line ts.

(** The tokens a peekable lexer still has to deliver. *)
Definition pending (p : peekable_lexer) (l : list bytes) : Prop :=
  lexer_ok (inner p) /\
  match cache p with
  | None => l = lex (unread (inner p))
  | Some None => l = [] /\ unread (inner p) = []
  | Some (Some t) => l = t :: lex (unread (inner p))
  end.

Lemma lex_unfold : forall s,
  lex s = match next_tok s with
          | Some (t, r) => t :: lex r
          | None => []
          end.
Proof.
  intro s. symmetry. apply tokenizes_iff.
  destruct (next_tok s) as [[t r]|] eqn:E.
  - eapply next_tok_some; eauto. apply lex_tokenizes.
  - now apply next_tok_none.
Qed.

Lemma lex_nil : lex [] = [].
Proof. reflexivity. Qed.

Lemma next_token_lex : forall lx, lexer_ok lx ->
  lexer_ok (snd (lexer_next_token lx)) /\
  match fst (lexer_next_token lx) with
  | Some t => lex (unread lx) = t :: lex (unread (snd (lexer_next_token lx)))
  | None => lex (unread lx) = [] /\ unread (snd (lexer_next_token lx)) = []
  end.
Proof.
  intros lx Hok. destruct (lexer_next_token_spec lx Hok) as [H Ho]. split; auto.
  rewrite lex_unfold. destruct (next_tok (unread lx)) as [[t r]|].
  - destruct H as [-> ->]. reflexivity.
  - destruct H as [-> ->]. auto.
Qed.

Lemma pending_peek : forall p l, pending p l ->
  fst (peekable_peek p) = hd_error l /\ pending (snd (peekable_peek p)) l.
Proof.
  intros [lx c] l (Hok & H). unfold peekable_peek; cbn in *.
  destruct c as [[t|]|]; cbn.
  - subst. split; auto. split; cbn; auto.
  - destruct H as [-> H]. split; auto. split; cbn; auto.
  - destruct (next_token_lex lx Hok) as [Ho Hn].
    destruct (lexer_next_token lx) as [[t|] lx']; cbn in *.
    + rewrite H, Hn. split; auto. split; cbn; auto.
    + destruct Hn as [Hn Hu]. rewrite H, Hn. split; auto. split; cbn; auto.
Qed.

Lemma pending_next : forall p l, pending p l ->
  fst (peekable_next p) = hd_error l /\ pending (snd (peekable_next p)) (tl l).
Proof.
  intros [lx c] l (Hok & H). unfold peekable_next; cbn in *.
  destruct c as [[t|]|]; cbn.
  - subst. split; auto. split; cbn; auto.
  - destruct H as [-> H]. split; auto. split; cbn; auto. rewrite H. reflexivity.
  - destruct (next_token_lex lx Hok) as [Ho Hn].
    destruct (lexer_next_token lx) as [[t|] lx']; cbn in *.
    + rewrite H, Hn. split; auto. split; cbn; auto.
    + destruct Hn as [Hn Hu]. rewrite H, Hn. split; auto. split; cbn; auto.
      rewrite Hu. reflexivity.
Qed.

Lemma pending_new : forall input, pending (peekable_new (lexer_new input)) (lex input).
Proof. intro input. split; cbn; auto. unfold lexer_ok; cbn; lia. Qed.

Definition no_escape (_ : abort) : Prop := False.

Lemma related_new : forall input,
  related (S1 := lexer_source) (S2 := list_source) pending
    (parser_new input) (list_parser 1 (lex input)).
Proof. intro input. split; cbn; auto. apply pending_new. Qed.

(** ** The parser over the token list *)

Definition parse_tokens (dbg : bool) (fuel : nat) (ts : list bytes)
  : outcome (parse_error ObjTypes.error_kind) object_set :=
  fst (parse_objset dbg fuel (list_parser 1 ts)).

Definition mtl_parse_tokens (fuel : nat) (ts : list bytes)
  : outcome (parse_error MtlTypes.error_kind) material_set :=
  fst (parse_mtlset fuel (list_parser 1 ts)).

Lemma parse_objset_lex : forall dbg fuel p l,
  related (S1 := lexer_source) (S2 := list_source) pending p l ->
  fst (parse_objset dbg fuel p) = fst (parse_objset dbg fuel l) /\
  related (S1 := lexer_source) (S2 := list_source) pending
    (snd (parse_objset dbg fuel p)) (snd (parse_objset dbg fuel l)).
Proof.
  intros dbg fuel p l H.
  destruct (sim_parse_objset (S1 := lexer_source) (S2 := list_source) pending no_escape
              fuel fuel dbg dbg pending_peek pending_next (or_introl eq_refl)
              (or_introl eq_refl) p l H) as [(x & [] & _)|Hr]; auto.
Qed.

Lemma parse_lex : forall dbg input,
  ObjModel.parse dbg input = parse_tokens dbg (ObjModel.fuel_for input) (lex input).
Proof. intros. apply parse_objset_lex. apply related_new. Qed.

Lemma parse_mtlset_lex : forall fuel p l,
  related (S1 := lexer_source) (S2 := list_source) pending p l ->
  fst (parse_mtlset fuel p) = fst (parse_mtlset fuel l) /\
  related (S1 := lexer_source) (S2 := list_source) pending
    (snd (parse_mtlset fuel p)) (snd (parse_mtlset fuel l)).
Proof.
  intros fuel p l H.
  destruct (sim_parse_mtlset (S1 := lexer_source) (S2 := list_source) pending no_escape
              fuel fuel pending_peek pending_next (or_introl eq_refl)
              p l H) as [(x & [] & _)|Hr]; auto.
Qed.

Lemma mtl_parse_lex : forall input,
  MtlModel.parse input = mtl_parse_tokens (MtlModel.fuel_for input) (lex input).
Proof. intros. apply parse_mtlset_lex. apply related_new. Qed.

(** ** Fuel *)

Lemma related_eq : forall S (p : parser S), related (S1 := S) (S2 := S) eq p p.
Proof. split; auto. Qed.

Lemma parse_objset_fuel : forall S dbg fuel fuel' (p : parser S), fuel <= fuel' ->
  fst (parse_objset dbg fuel p) <> Diverge ->
  fst (parse_objset dbg fuel' p) = fst (parse_objset dbg fuel p).
Proof.
  intros S dbg fuel fuel' p Hle Hd.
  destruct (sim_parse_objset (S1 := S) (S2 := S) eq (fun a => a = ADiverge)
              fuel fuel' dbg dbg) with (p1 := p) (p2 := p) as [(x & -> & Ha)|[He _]];
    try (intros; subst; auto; fail); auto using related_eq.
  contradiction.
Qed.

Lemma parse_mtlset_fuel : forall S fuel fuel' (p : parser S), fuel <= fuel' ->
  fst (parse_mtlset fuel p) <> Diverge ->
  fst (parse_mtlset fuel' p) = fst (parse_mtlset fuel p).
Proof.
  intros S fuel fuel' p Hle Hd.
  destruct (sim_parse_mtlset (S1 := S) (S2 := S) eq (fun a => a = ADiverge)
              fuel fuel') with (p1 := p) (p2 := p) as [(x & -> & Ha)|[He _]];
    try (intros; subst; auto; fail); auto using related_eq.
  contradiction.
Qed.

(** ** Build modes *)

Definition debug_escape (a : abort) : Prop :=
  a = APanic PanicOverflow \/ a = APanic PanicAssert.

Lemma parse_objset_debug : forall S fuel (p : parser S),
  fst (parse_objset true fuel p) = fst (parse_objset false fuel p) \/
  fst (parse_objset true fuel p) = Panic PanicOverflow \/
  fst (parse_objset true fuel p) = Panic PanicAssert.
Proof.
  intros S fuel p.
  destruct (sim_parse_objset (S1 := S) (S2 := S) eq debug_escape
              fuel fuel true false) with (p1 := p) (p2 := p) as [(x & [->| ->] & Ha)|[He _]];
    try (intros; subst; auto; fail); auto using related_eq.
  unfold debug_escape. right. auto 10.
Qed.
