(** Texts and their tokens. *)
From Verif Require Import TokenSpec ParserBase LexerProofs ConsumeProofs.
Local Open Scope list_scope.

Lemma tokenizes_split : forall s ts, tokenizes s ts -> forall a b, ts = a ++ b ->
  exists s1 s2, s = s1 ++ s2 /\ tokenizes s1 a /\ tokenizes s2 b.
Proof.
  intros s ts H. induction H as [|c s ts Hc H IH|c s ts Hc H IH|text s ts Ht Hs H IH|w s ts Hw Hf Hs H IH]; intros a b E.
  - symmetry in E. apply app_eq_nil in E. destruct E as [-> ->]. exists [], []. repeat split; constructor.
  - destruct a as [|t a].
    + cbn in E. subst b. exists [], (c :: s). split; [reflexivity|]. split; [apply tk_end|]. first [now apply tk_separator|now apply tk_line_end|now apply tk_comment|now apply tk_word].
    + destruct (IH _ _ E) as (s1 & s2 & -> & H1 & H2). exists (c :: s1), s2. split; [reflexivity|]. split; auto. first [now apply tk_separator|now apply tk_line_end].
  - destruct a as [|t a]; cbn in E.
    + subst b. exists [], (c :: s). split; [reflexivity|]. split; [apply tk_end|]. first [now apply tk_separator|now apply tk_line_end|now apply tk_comment|now apply tk_word].
    + inversion E; subst. destruct (IH _ _ eq_refl) as (s1 & s2 & -> & H1 & H2).
      exists (c :: s1), s2. split; [reflexivity|]. split; auto. first [now apply tk_separator|now apply tk_line_end].
  - destruct a as [|t a].
    + cbn in E. subst b. exists [], ("#"%char :: text ++ s). split; [reflexivity|]. split; [apply tk_end|]. first [now apply tk_separator|now apply tk_line_end|now apply tk_comment|now apply tk_word].
    + destruct (IH _ _ E) as (s1 & s2 & -> & H1 & H2). exists ("#"%char :: text ++ s1), s2.
      split; [cbn; now rewrite <- app_assoc|]. split; auto. first [apply tk_comment; auto|apply tk_word; auto].
      destruct s1; [exact I|exact Hs].
  - destruct a as [|t a]; cbn in E.
    + subst b. exists [], (w ++ s). split; [reflexivity|]. split; [apply tk_end|]. first [now apply tk_separator|now apply tk_line_end|now apply tk_comment|now apply tk_word].
    + inversion E; subst. destruct (IH _ _ eq_refl) as (s1 & s2 & -> & H1 & H2).
      exists (t ++ s1), s2. split; [now rewrite app_assoc|]. split; auto. first [apply tk_comment; auto|apply tk_word; auto].
      destruct s1; [exact I|exact Hs].
Qed.

Lemma count_occ_none : forall s, Forall (fun c => ~ line_end c) s -> count_occ ascii_dec s LF = 0.
Proof.
  intros s H. apply count_occ_not_In. intros Hi. rewrite Forall_forall in H. apply (H LF Hi). now left.
Qed.

Lemma count_nl_line : forall s ts, tokenizes s ts -> count_nl ts = count_occ ascii_dec s LF.
Proof.
  intros s ts H. induction H as [|c s ts Hc H IH|c s ts Hc H IH|text s ts Ht Hs H IH|w s ts Hw Hf Hs H IH].
  - reflexivity.
  - rewrite count_occ_cons_neq; auto. intros ->. destruct Hc as [E|[E|E]]; discriminate.
  - rewrite count_nl_cons, IH. destruct Hc as [-> | ->]; reflexivity.
  - rewrite count_occ_cons_neq by discriminate. rewrite count_occ_app. unfold byte in *. rewrite (count_occ_none text Ht). exact IH.
  - rewrite count_nl_cons, count_occ_app. unfold byte in *. rewrite (count_occ_none w), IH.
    + destruct (bytes_eqb_spec w nl) as [->|]; auto. inversion Hf as [|? ? (_ & Hl & _)]; subst. exfalso. apply Hl. now left.
    + eapply Forall_impl; [|exact Hf]. now intros c (_ & Hl & _).
Qed.

Lemma tokens_are : forall s ts, tokenizes s ts -> forall t, In t ts -> is_token t /\ slice_of t s.
Proof.
  intros s ts H. induction H as [|c s ts Hc H IH|c s ts Hc H IH|text s ts Ht Hs H IH|w s ts Hn Hw Hs H IH]; intros t Hin.
  - destruct Hin.
  - destruct (IH t Hin) as (I1 & a & b & ->). split; auto. exists (c :: a), b. reflexivity.
  - destruct Hin as [<-|Hin].
    + split; [left; eauto|]. exists [], s. reflexivity.
    + destruct (IH t Hin) as (I1 & a & b & ->). split; auto. exists (c :: a), b. reflexivity.
  - destruct (IH t Hin) as (I1 & a & b & ->). split; auto. exists ("#"%char :: text ++ a), b. cbn. now rewrite <- app_assoc.
  - destruct Hin as [<-|Hin].
    + split; [right; auto|]. exists [], s. reflexivity.
    + destruct (IH t Hin) as (I1 & a & b & ->). split; auto. exists (w ++ a), b. now rewrite <- app_assoc.
Qed.

Lemma token_name : forall input ts t, tokenizes input ts -> In t ts -> proper_name input t.
Proof.
  intros input ts t Ht Hin. destruct (tokens_are _ _ Ht _ Hin) as [Hi Hs]. destruct Hi as [(c & Hc & ->)|(Hn & HF)].
  - split; [discriminate|]. split; auto. constructor; auto. destruct Hc as [->| ->]; split; try discriminate; intros [C|[C|C]]; discriminate.
  - split; auto. split; auto. eapply Forall_impl; [|exact HF]. intros c (H1 & H2 & H3). auto.
Qed.

Lemma tokenizes_newline : forall x tx y ty, tokenizes x tx -> tokenizes y ty ->
  tokenizes (x ++ LF :: y) (tx ++ nl :: ty).
Proof.
  intros x tx y ty H Hy. induction H as [|c s ts Hc H IH|c s ts Hc H IH|text s ts Ht Hs H IH|w s ts Hn Hw Hs H IH].
  - cbn. apply tk_line_end; auto. now left.
  - cbn. now apply tk_separator.
  - cbn. now apply tk_line_end.
  - cbn. rewrite <- app_assoc. apply tk_comment; auto. destruct s; cbn in *; auto. now left.
  - cbn. rewrite <- app_assoc. apply tk_word; auto. destruct s; cbn in *; auto.
    intros (_ & K & _). apply K. now left.
Qed.
