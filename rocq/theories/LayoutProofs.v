(** Edits of the layout of a text that do not change its tokens, and the lexer
    under arbitrary interleavings of [peek] and [next]. *)
From Verif Require Import ObjModel MtlModel TokenSpec LexerProofs SourceProofs TotalProofs.
Local Open Scope char_scope.
Local Open Scope list_scope.

(** Tokens finished inside [s], and the mode at its end. *)
Fixpoint emitted (m : mode) (s : bytes) : list bytes * mode :=
  match s with
  | [] => ([], m)
  | c :: r =>
      match m with
      | InComment =>
          if is_newline c then let '(ts, m') := emitted Gap r in ([c] :: ts, m')
          else emitted InComment r
      | _ =>
          if is_whitespace c then let '(ts, m') := emitted Gap r in (flush m ++ ts, m')
          else if is_newline c then let '(ts, m') := emitted Gap r in (flush m ++ [c] :: ts, m')
          else if Ascii.eqb c "#" then let '(ts, m') := emitted InComment r in (flush m ++ ts, m')
          else emitted (extend m c) r
      end
  end.

Lemma scan_app : forall a m b,
  scan m (a ++ b) = fst (emitted m a) ++ scan (snd (emitted m a)) b.
Proof.
  induction a as [|c a IH]; intros m b; cbn; [reflexivity|].
  assert (H : forall m', scan m' (a ++ b) = fst (emitted m' a) ++ scan (snd (emitted m' a)) b) by auto.
  destruct m; cbn.
  - destruct (is_whitespace c); [|destruct (is_newline c); [|destruct (Ascii.eqb c "#")]];
      rewrite H; auto; destruct (emitted _ a); reflexivity.
  - destruct (is_whitespace c); [|destruct (is_newline c); [|destruct (Ascii.eqb c "#")]];
      rewrite H; auto; destruct (emitted _ a); reflexivity.
  - destruct (is_newline c); rewrite H; auto. destruct (emitted Gap a); reflexivity.
Qed.

(** What is after [a] may be replaced by what scans alike in every mode. *)
Lemma lex_replace : forall a b b', (forall m, scan m b = scan m b') -> lex (a ++ b) = lex (a ++ b').
Proof. intros a b b' H. rewrite !lex_scan, !scan_app, H. reflexivity. Qed.

Lemma scan_gap_blank : forall w s, Forall separator w -> scan Gap (w ++ s) = scan Gap s.
Proof.
  induction w as [|c w IH]; intros s H; cbn; auto. inversion H; subst.
  apply is_whitespace_spec in H2. rewrite H2. cbn. auto.
Qed.

Lemma separator_not_line_end : forall c, separator c -> ~ line_end c.
Proof. intros c [->|[->| ->]] [H|H]; discriminate. Qed.

Lemma scan_blank : forall w s m, Forall separator w -> w <> [] ->
  scan m (w ++ s) = flush m ++ scan (match m with InComment => InComment | _ => Gap end) s.
Proof.
  intros w s m H Hne. destruct m.
  - now apply scan_gap_blank.
  - destruct w as [|c w]; [congruence|]. inversion H; subst. cbn.
    apply is_whitespace_spec in H2. rewrite H2. cbn. now rewrite scan_gap_blank.
  - apply scan_comment. eapply Forall_impl; [|exact H]. apply separator_not_line_end.
Qed.

Lemma lex_whitespace : forall a w1 w2 b, Forall separator w1 -> Forall separator w2 ->
  w1 <> [] -> w2 <> [] -> lex (a ++ w1 ++ b) = lex (a ++ w2 ++ b).
Proof. intros. apply lex_replace. intros m. now rewrite !scan_blank. Qed.

Lemma scan_hash : forall text s m, Forall (fun c => ~ line_end c) text -> starts_with line_end s ->
  scan m ("#" :: text ++ s) = scan m s.
Proof.
  intros text s m Ht Hs.
  assert (E : scan InComment (text ++ s) = scan Gap s)
    by (rewrite scan_comment by auto; now apply scan_comment_break).
  destruct m; cbn.
  - exact E.
  - rewrite E. symmetry. destruct s as [|c s]; auto. cbn in Hs.
    apply is_newline_spec in Hs. cbn. now rewrite (newline_not_ws c Hs), Hs.
  - rewrite scan_comment by auto. reflexivity.
Qed.

Lemma lex_comment : forall a text b, Forall (fun c => ~ line_end c) text -> starts_with line_end b ->
  lex (a ++ "#" :: text ++ b) = lex (a ++ b).
Proof. intros. apply lex_replace. intros m. now apply scan_hash. Qed.

(** Blanks at the ends of lines and of the text do not matter. *)
Lemma lex_trailing_blank : forall a w b, Forall separator w -> starts_with line_end b ->
  lex (a ++ w ++ b) = lex (a ++ b).
Proof.
  intros a w b Hw Hb. destruct w as [|c w]; [reflexivity|].
  apply lex_replace. intros m. rewrite scan_blank by (auto; discriminate).
  destruct m; cbn; auto. destruct b as [|c' b]; auto. cbn in Hb.
  apply is_newline_spec in Hb. cbn. now rewrite (newline_not_ws c' Hb), Hb.
Qed.

(** ** Interleavings *)

Inductive lexer_op := Peek | Next.

(** The answers of the lexer to a list of calls. *)
Fixpoint lexer_answers (p : peekable_lexer) (ops : list lexer_op) : list (option bytes) :=
  match ops with
  | [] => []
  | Peek :: ops' => let '(t, p') := peekable_peek p in t :: lexer_answers p' ops'
  | Next :: ops' => let '(t, p') := peekable_next p in t :: lexer_answers p' ops'
  end.

(** The answers of the plain sequence of tokens. *)
Fixpoint list_answers (ts : list bytes) (ops : list lexer_op) : list (option bytes) :=
  match ops with
  | [] => []
  | Peek :: ops' => hd_error ts :: list_answers ts ops'
  | Next :: ops' => hd_error ts :: list_answers (tl ts) ops'
  end.

Lemma pending_answers : forall ops p ts, pending p ts -> lexer_answers p ops = list_answers ts ops.
Proof.
  induction ops as [|[] ops IH]; intros p ts H; cbn; auto.
  - destruct (pending_peek p ts H) as [E H']. destruct (peekable_peek p) as [t p']; cbn in *. subst.
    f_equal. auto.
  - destruct (pending_next p ts H) as [E H']. destruct (peekable_next p) as [t p']; cbn in *. subst.
    f_equal. auto.
Qed.

Lemma lexer_answers_spec : forall input ts ops, tokenizes input ts ->
  lexer_answers (peekable_new (lexer_new input)) ops = list_answers ts ops.
Proof.
  intros input ts ops H. apply tokenizes_iff in H. subst. apply pending_answers, pending_new.
Qed.

Lemma list_answers_in : forall ops ts t, In (Some t) (list_answers ts ops) -> In t ts.
Proof.
  induction ops as [|[] ops IH]; intros ts t H; cbn in H; [tauto| |].
  - destruct H as [H|H]; auto. destruct ts; inversion H; subst; now left.
  - destruct H as [H|H].
    + destruct ts; inversion H; subst; now left.
    + apply IH in H. destruct ts; [destruct H|now right].
Qed.

Lemma lexer_answers_utf8 : forall input ops t, valid_utf8 input ->
  In (Some t) (lexer_answers (peekable_new (lexer_new input)) ops) -> valid_utf8 t.
Proof.
  intros input ops t Hv H. rewrite (lexer_answers_spec input (lex input)) in H by apply lex_tokenizes.
  apply list_answers_in in H.
  pose proof (tokenizes_utf8 _ _ (lex_tokenizes input) Hv) as HF. rewrite Forall_forall in HF. auto.
Qed.
