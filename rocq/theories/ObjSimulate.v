(** Two OBJ texts that are read alike, step by step, have the same outcome. *)
From Verif Require Import ObjModel RespellSpec ObjView LexerProofs TextProofs ConsumeProofs ObjAccept ObjFile ObjUnique ObjTop ObjMore ObjFacts ObjDebug TotalProofs.
Local Open Scope list_scope.

(** What can be read from one list of tokens can be read from the other. *)
Record carried (T T' : list bytes) : Prop := {
  carried_file : forall f, reads_file T f [] -> reads_file T' f [];
  carried_end : forall done o rest, reaches T done (Some o) rest -> at_object_end rest ->
    exists rest', reaches T' done (Some o) rest' /\ at_object_end rest';
  carried_fails : forall ts c rest, fails_at T ts c rest -> exists ts' c' rest', fails_at T' ts' c' rest' /\
    fst c = fst c' /\ count_nl rest = count_nl rest';
  carried_overflows : overflows_file T -> overflows_file T'
}.

Section Simulate.
Context (P : list bytes -> list bytes -> Prop).
Context (P_end : forall ts ts', P ts ts' -> (at_object_end ts <-> at_object_end ts') /\ (ts = [] -> ts' = [])).
Context (P_blank : forall ts ts', P (nl :: ts) ts' -> exists r, ts' = nl :: r /\ P ts r).
Context (P_header : forall name ts ts', P (lit "o" :: name :: nl :: ts) ts' -> exists r, ts' = lit "o" :: name :: nl :: r /\ P ts r).
Context (P_reads : forall base now ts ts' s mid, P ts ts' -> reads_statement base now ts s mid ->
  exists mid', reads_statement base now ts' s mid' /\ P mid mid').
Context (P_fails : forall base now ts ts' c rest, P ts ts' -> fails_statement base now ts c rest ->
  exists c' rest', fails_statement base now ts' c' rest' /\ fst c = fst c' /\ count_nl rest = count_nl rest').
Context (P_header_fails : forall ts ts' c rest, P ts ts' -> fails_header ts c rest ->
  exists c' rest', fails_header ts' c' rest' /\ fst c = fst c' /\ count_nl rest = count_nl rest').
Context (P_overflows : forall base now ts ts', P ts ts' -> overflows base now ts -> overflows base now ts').
Context (T T' : list bytes).
Context (P_libraries : forall libs mid, reads_libraries T libs mid -> exists mid', reads_libraries T' libs mid' /\ P mid mid').

Lemma sim_body : forall base now ts ss rest, reads_body base now ts ss rest -> forall ts', P ts ts' ->
  exists rest', reads_body base now ts' ss rest' /\ P rest rest'.
Proof.
  intros base now ts ss rest H. induction H as [now ts He|now ts ss rest H IH|now ts s mid ss rest Hs H IH]; intros ts' K.
  - exists ts'. split; auto. apply body_end. now apply (P_end _ _ K).
  - apply P_blank in K. destruct K as (r & -> & K). destruct (IH _ K) as (rest' & R & Q). exists rest'. split; auto. now apply body_blank.
  - destruct (P_reads _ _ _ _ _ _ K Hs) as (mid' & S & Q). destruct (IH _ Q) as (rest' & R & Q'). exists rest'. split; auto.
    eapply body_statement; eauto.
Qed.

Lemma sim_objects : forall now ts os rest, reads_objects now ts os rest -> forall ts', P ts ts' ->
  exists rest', reads_objects now ts' os rest' /\ P rest rest'.
Proof.
  intros now ts os rest H. induction H as [now ts|now n ts ss mid os rest Hb H IH]; intros ts' K.
  - exists ts'. split; auto. apply objects_end.
  - apply P_header in K. destruct K as (r & -> & K). destruct (sim_body _ _ _ _ _ Hb _ K) as (mid' & B & Q).
    destruct (IH _ Q) as (rest' & R & Q'). exists rest'. split; auto. eapply objects_more; eauto.
Qed.

Lemma sim_file : forall f, reads_file T f [] -> reads_file T' f [].
Proof.
  intros f H. inversion H as [ts libs mid os rest Hl Ho|ts libs mid ss mid' os rest Hl He Hb Ho]; subst.
  - destruct (P_libraries _ _ Hl) as (m & L & Q). destruct (sim_objects _ _ _ _ Ho _ Q) as (r & O & Q').
    apply P_end in Q'. destruct Q' as [_ Q']. rewrite (Q' eq_refl) in O. eapply file_named; eauto.
  - destruct (P_libraries _ _ Hl) as (m & L & Q). destruct (sim_body _ _ _ _ _ Hb _ Q) as (m' & B & Q').
    destruct (sim_objects _ _ _ _ Ho _ Q') as (r & O & Q'').
    apply P_end in Q''. destruct Q'' as [_ Q'']. rewrite (Q'' eq_refl) in O. eapply file_unnamed; eauto.
    apply P_end in Q. tauto.
Qed.

Lemma sim_reaches : forall done cur rest, reaches T done cur rest -> exists rest', reaches T' done cur rest' /\ P rest rest'.
Proof.
  intros done cur rest H. induction H as [libs rest H|rest H (r & R & Q) Hn|done name rest H (r & R & Q)|done o rest H (r & R & Q)|done name ss s mid rest H (r & R & Q) Hs|done o rest H (r & R & Q) He Hd].
  - destruct (P_libraries _ _ H) as (m & L & Q). exists m. split; auto. eapply reaches_start; eauto.
  - exists r. split; auto. apply reaches_unnamed; auto. apply P_end in Q. tauto.
  - apply P_header in Q. destruct Q as (r' & -> & Q). exists r'. split; auto. now apply reaches_named.
  - apply P_blank in Q. destruct Q as (r' & -> & Q). exists r'. split; auto. now apply reaches_blank.
  - destruct (P_reads _ _ _ _ _ _ Q Hs) as (mid' & S & Q'). exists mid'. split; auto. eapply reaches_statement; eauto.
  - exists r. split; auto. apply reaches_end; auto. apply P_end in Q. tauto.
Qed.

Lemma simulated : carried T T'.
Proof.
  split.
  - exact sim_file.
  - intros done o rest H He. destruct (sim_reaches _ _ _ H) as (r & R & Q). exists r. split; auto. apply P_end in Q. tauto.
  - intros ts c rest [(done & n & ss & H & K)|(done & H & K)]; destruct (sim_reaches _ _ _ H) as (r & R & Q).
    + destruct (P_fails _ _ _ _ _ _ Q K) as (c' & rest' & K' & E). exists r, c', rest'. split; auto. left. exists done, n, ss. auto.
    + destruct (P_header_fails _ _ _ _ Q K) as (c' & rest' & K' & E). exists r, c', rest'. split; auto. right. exists done. auto.
  - intros (done & n & ss & ts & H & K). destruct (sim_reaches _ _ _ H) as (r & R & Q). exists done, n, ss, r. split; auto.
    eapply P_overflows; eauto.
Qed.
End Simulate.

Lemma carried_release : forall input input' ts ts', fits input -> fits input' -> tokenizes input ts -> tokenizes input' ts' ->
  count_nl ts = count_nl ts' -> carried ts ts' -> same_outcome (parse false input) (parse false input').
Proof.
  intros input input' ts ts' F F' H H' E C. assert (U : forall x y, tokenizes input x -> tokenizes input y -> x = y).
  { intros x y A B. apply tokenizes_iff in A, B. congruence. }
  destruct (parse false input) as [set|e|x|] eqn:R.
  - apply parse_says_iff in R; auto. destruct R as (f & (ts0 & Ht & Hr) & Hd & ->). rewrite (U _ _ Ht H) in Hr.
    assert (parse false input' = Ok (file_means f)) as ->; [|reflexivity]. apply parse_says_iff; auto.
    exists f. repeat split; auto. exists ts'. split; auto. now apply (carried_file _ _ C).
  - apply parse_err_iff in R; auto. destruct R as (x & y & tx & ty & c & -> & Hx & Hy & Ht & Hc & ->).
    rewrite (U _ _ Ht H) in Hc. apply fails_file_at in Hc. destruct Hc as (mid & Hc).
    destruct (carried_fails _ _ C _ _ _ Hc) as (mid' & c' & rest' & Hc' & K & N).
    assert (S : exists p, ts' = p ++ rest').
    { destruct (fails_at_suffix _ _ _ _ Hc') as [p ->]. destruct (fails_at_takes _ _ _ _ Hc') as (q & -> & _).
      exists (p ++ q). now rewrite app_assoc. }
    destruct S as [p ->]. destruct (tokenizes_split _ _ H' _ _ eq_refl) as (x' & y' & -> & Hx' & Hy').
    assert (parse false (x' ++ y') = Err (mkParseError (line_after x') (fst c') (snd c'))) as ->.
    { apply parse_err_iff; auto. exists x', y', p, rest', c'. repeat split; auto. apply fails_file_at. eauto. }
    cbn. split; auto. unfold line_after. f_equal. rewrite <- (count_nl_line _ _ Hx), <- (count_nl_line _ _ Hx').
    rewrite <- (U _ _ Ht H), !count_nl_app in E. lia.
  - apply panic_place in R; auto. destruct R as (-> & ts0 & d & o & rest & Ht & Hr & He & Hd). rewrite (U _ _ Ht H) in Hr.
    destruct (carried_end _ _ C _ _ _ Hr He) as (rest' & Hr' & He').
    assert (parse false input' = Panic PanicIndex) as ->; [|reflexivity]. apply panic_place; auto. split; auto.
    exists ts', d, o, rest'. auto.
  - exfalso. revert R. apply (obj_terminates false input (lex input) (S (length (lex input)))); [apply lex_tokenizes|lia].
Qed.

Lemma carried_outcome : forall dbg input input' ts ts', fits input -> fits input' -> tokenizes input ts -> tokenizes input' ts' ->
  count_nl ts = count_nl ts' -> carried ts ts' -> carried ts' ts -> same_outcome (parse dbg input) (parse dbg input').
Proof.
  intros [|] input input' ts ts' F F' H H' E C C'; [|eapply carried_release; eauto].
  pose proof (proj1 (tokenizes_iff _ _) H) as L. pose proof (proj1 (tokenizes_iff _ _) H') as L'.
  destruct (parse_debug _ F) as [[O ->]|[O ->]], (parse_debug _ F') as [[O' ->]|[O' ->]]; rewrite <- ?L, <- ?L' in *.
  - reflexivity.
  - destruct O'. now apply (carried_overflows _ _ C).
  - destruct O. now apply (carried_overflows _ _ C').
  - eapply carried_release; eauto.
Qed.
