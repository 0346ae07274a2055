(** Proofs about texts that start with a word no statement starts with. *)
From Verif Require Import ObjModel LexerProofs SourceProofs ConsumeProofs TextProofs RunProofs ObjErrorSpec ObjTop ObjFacts ObjMore ObjDebug Again.
From Verif Require MtlTypes MtlModel MtlSpec MtlFacts.
Local Open Scope list_scope.

(** * OBJ *)

Lemma blank_libraries : forall n t ts libs rest, unknown t -> reads_libraries (repeat nl n ++ t :: ts) libs rest -> rest = t :: ts.
Proof.
  induction n as [|n IH]; intros t ts libs rest U H; cbn [repeat app] in H; [eapply unknown_libraries; eauto|].
  inversion H as [? ? ? K|? ? ? ? ? K|? K]; subst; eauto. destruct K as [K _]. now contradiction K.
Qed.

Lemma blank_reaches : forall n t ts, unknown t -> forall done cur rest, reaches (repeat nl n ++ t :: ts) done cur rest -> rest = t :: ts.
Proof.
  intros n t ts U done cur rest H.
  induction H as [libs rest H|rest H IH Ho|done name rest H IH|done o rest H IH|done name ss s mid rest H IH Hs|done o rest H IH]; auto.
  - eapply blank_libraries; eauto.
  - destruct U as (_ & _ & U & _). congruence.
  - destruct U as (_ & U & _). congruence.
  - subst mid. exfalso. eapply unknown_statement; eauto.
Qed.

Lemma libraries_blanks : forall n ts libs rest, reads_libraries ts libs rest -> reads_libraries (repeat nl n ++ ts) libs rest.
Proof. induction n as [|n IH]; intros; cbn [repeat app]; auto. apply libraries_blank. auto. Qed.

Lemma count_blanks : forall n, count_nl (repeat nl n) = n.
Proof. induction n as [|n IH]; [reflexivity|]. cbn [repeat]. now rewrite count_nl_cons, IH. Qed.

Lemma first_word : forall dbg input n w rest, fits input -> tokenizes input (repeat nl n ++ w :: rest) ->
  w <> nl -> w <> lit "o" -> w <> lit "mtllib" -> ~ In w keywords ->
  parse dbg input = Err (mkParseError (S n) InvalidObjectStatement (msg_statement w)).
Proof.
  intros dbg input n w rest Hf Ht H1 H2 H3 H4.
  assert (U : unknown w) by (repeat split; auto).
  destruct (tokenizes_split _ _ Ht _ _ eq_refl) as (x & y & Ei & Hx & Hy).
  assert (R : parse false input = Err (mkParseError (S n) InvalidObjectStatement (msg_statement w))).
  { rewrite (ObjMore.unknown_statement input x y (repeat nl n) w rest [] ([], [])); auto.
    - do 2 f_equal. unfold line_after. rewrite <- (count_nl_line _ _ Hx). now rewrite count_blanks.
    - apply reaches_unnamed; [|exact H2]. eapply reaches_start. apply libraries_blanks. now apply libraries_end. }
  destruct dbg; [|exact R]. destruct (parse_debug input Hf) as [[(done & k & ss & mid & K & L) _]|[_ ->]]; auto.
  exfalso. apply tokenizes_iff in Ht. rewrite <- Ht in K. apply (blank_reaches n w rest U) in K. subst mid.
  apply H4. inversion L; subst; cbn; tauto.
Qed.

(** * MTL *)

Lemma mtl_first_word : forall input n w rest, tokenizes input (repeat nl n ++ w :: rest) ->
  w <> nl -> w <> lit "newmtl" ->
  MtlModel.parse input = Err (mkParseError (S n) MtlTypes.ExpectedEndOfInput (MtlSpec.msg_not_end w)).
Proof.
  intros input n w rest Ht H1 H2. destruct (tokenizes_split _ _ Ht _ _ eq_refl) as (x & y & Ei & Hx & Hy).
  apply MtlFacts.error_iff. exists x, [], y, (repeat nl n), [], (w :: rest). cbn [app].
  split; [exact Ei|]. split; [exact Hx|]. split; [apply tk_end|]. split; [exact Hy|]. split; [exact Ht|]. split.
  - now apply MtlSpec.fails_at_start.
  - cbn [err_line_number]. unfold line_after. rewrite app_nil_r, <- (count_nl_line _ _ Hx). now rewrite count_blanks.
Qed.

(** * First bytes *)

Lemma word_start : forall c s, word_byte c -> exists w s', s = w ++ s' /\ Forall word_byte w /\ starts_with (fun c => ~ word_byte c) s' /\
  tokenizes (c :: s) ((c :: w) :: lex s').
Proof.
  intros c s Hc.
  assert (K : exists w s', s = w ++ s' /\ Forall word_byte w /\ starts_with (fun c => ~ word_byte c) s').
  { induction s as [|d s (w & s' & -> & Hw & Hs)]; [exists [], []; repeat split; auto; exact I|].
    destruct (negb (is_whitespace_or_newline d || Ascii.eqb d "#"%char)) eqn:E.
    - exists (d :: w), s'. repeat split; auto. constructor; auto. now apply is_word_spec.
    - exists [], (d :: w ++ s'). split; [reflexivity|]. split; [constructor|]. cbn. intros H. apply is_word_spec in H. congruence. }
  destruct K as (w & s' & -> & Hw & Hs). exists w, s'. repeat split; auto.
  apply (tk_word (c :: w) s'); auto; [discriminate|apply lex_tokenizes].
Qed.

Lemma bad_start : forall dbg c s, fits (c :: s) -> word_byte c -> ~ In c (lit "gsuvplfom") ->
  exists w s', s = w ++ s' /\ Forall word_byte w /\ starts_with (fun c => ~ word_byte c) s' /\
    parse dbg (c :: s) = Err (mkParseError 1 InvalidObjectStatement (msg_statement (c :: w))).
Proof.
  intros dbg c s Hf Hc Hn. destruct (word_start c s Hc) as (w & s' & Es & Hw & Hs & Ht).
  assert (D : forall a v, c :: w = a :: v -> In a (lit "gsuvplfom") -> False) by (intros a v E K; injection E as <- _; auto).
  exists w, s'. split; [exact Es|]. split; [exact Hw|]. split; [exact Hs|].
  apply (first_word dbg (c :: s) 0 (c :: w) (lex s')); auto.
  - intros E. injection E as -> _. destruct Hc as (_ & Hc & _). apply Hc. now left.
  - intros E. eapply D; [exact E|vm_compute; tauto].
  - intros E. eapply D; [exact E|vm_compute; tauto].
  - intros K. unfold keywords in K. cbn [In] in K.
    repeat match type of K with _ \/ _ => destruct K as [K|K]; [symmetry in K; eapply D; [exact K|vm_compute; tauto]|] end. exact K.
Qed.

Lemma mtl_bad_start : forall c s, word_byte c -> c <> "n"%char ->
  exists w s', s = w ++ s' /\ Forall word_byte w /\ starts_with (fun c => ~ word_byte c) s' /\
    MtlModel.parse (c :: s) = Err (mkParseError 1 MtlTypes.ExpectedEndOfInput (MtlSpec.msg_not_end (c :: w))).
Proof.
  intros c s Hc Hn. destruct (word_start c s Hc) as (w & s' & Es & Hw & Hs & Ht).
  exists w, s'. repeat split; auto. apply (mtl_first_word (c :: s) 0 (c :: w) (lex s')); auto.
  - intros E. injection E as -> _. destruct Hc as (_ & Hc & _). apply Hc. now left.
  - intros E. injection E as -> _. auto.
Qed.
