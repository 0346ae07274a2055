(** Proofs about calling [parse_objset] again. *)
From Verif Require Import ObjModel AgainSpec LexerProofs RelProofs SourceProofs ConsumeProofs TotalProofs RunProofs
  ObjErrorSpec ObjFile ObjTop ObjFacts ObjMore ObjDebug ObjProps RewriteSpec.
Local Open Scope list_scope.

(** * Runs from any line *)

Lemma run_cases_from : forall dbg fuel l ts, length ts < fuel ->
  exists pre rest, ts = pre ++ rest /\
    ((exists set, parse_objset dbg fuel (list_parser l ts) = (Ok set, list_parser (l + count_nl pre) rest)) \/
     (exists b, parse_objset dbg fuel (list_parser l ts) = (bad_outcome (l + count_nl pre) b, list_parser (l + count_nl pre) rest))).
Proof.
  intros dbg fuel l ts Hl. destruct (cons_parse_objset fuel dbg always l ts Hl I) as (pre & H1 & H2 & H3).
  destruct (parse_objset dbg fuel (list_parser l ts)) as [o [line rest]] eqn:E. cbn [fst snd lexer_state line_number] in *.
  subst line. exists pre, rest. split; auto. destruct o as [set|e|x|].
  - left. exists set. reflexivity.
  - right. exists (Fails (err_kind e) (err_message e)). destruct e. cbn in *. subst. reflexivity.
  - right. exists (Panics x). reflexivity.
  - destruct H3.
Qed.

(** Only the lines of errors depend on where a run starts. *)
Lemma run_shift : forall dbg fuel fuel' l l' ts, room no_counts ts -> length ts < fuel -> length ts < fuel' ->
  (exists set, parse_objset dbg fuel (list_parser l ts) = (Ok set, list_parser (l + count_nl ts) []) /\
     parse_objset dbg fuel' (list_parser l' ts) = (Ok set, list_parser (l' + count_nl ts) [])) \/
  (exists pre rest c, ts = pre ++ rest /\ fails_file ts c rest /\
     parse_objset dbg fuel (list_parser l ts) =
       (Err (mkParseError (l + count_nl pre) (fst c) (snd c)), list_parser (l + count_nl pre) rest) /\
     parse_objset dbg fuel' (list_parser l' ts) =
       (Err (mkParseError (l' + count_nl pre) (fst c) (snd c)), list_parser (l' + count_nl pre) rest)) \/
  (exists x p p', parse_objset dbg fuel (list_parser l ts) = (Panic x, p) /\
     parse_objset dbg fuel' (list_parser l' ts) = (Panic x, p')).
Proof.
  intros dbg fuel fuel' l l' ts Hr Hl Hl'.
  assert (R : (exists set, parse_objset false fuel (list_parser l ts) = (Ok set, list_parser (l + count_nl ts) []) /\
     parse_objset false fuel' (list_parser l' ts) = (Ok set, list_parser (l' + count_nl ts) [])) \/
  (exists pre rest c, ts = pre ++ rest /\ fails_file ts c rest /\
     parse_objset false fuel (list_parser l ts) =
       (Err (mkParseError (l + count_nl pre) (fst c) (snd c)), list_parser (l + count_nl pre) rest) /\
     parse_objset false fuel' (list_parser l' ts) =
       (Err (mkParseError (l' + count_nl pre) (fst c) (snd c)), list_parser (l' + count_nl pre) rest)) \/
  (exists x p p', parse_objset false fuel (list_parser l ts) = (Panic x, p) /\
     parse_objset false fuel' (list_parser l' ts) = (Panic x, p'))).
  { destruct (acc_at_objset fuel ts Hr Hl) as [A _]. destruct (acc_at_objset fuel' ts Hr Hl') as [A' _].
    pose proof (bad_at_objset fuel ts Hr Hl) as B. pose proof (bad_at_objset fuel' ts Hr Hl') as B'.
    destruct (run_cases_from false fuel l ts Hl) as (pre & rest & Es & [(set & E)|(b & E)]);
    destruct (run_cases_from false fuel' l' ts Hl') as (pre' & rest' & Es' & C').
    - left. exists set. pose proof (proj1 (A l set rest) (ex_intro _ _ E)) as Hok.
      destruct (proj2 (A' l' set rest) Hok) as [l2 E2]. destruct Hok as (-> & _). rewrite app_nil_r in Es. subst pre.
      split; auto. destruct C' as [(set' & E')|(b & E')]; rewrite E2 in E'; [|destruct b; discriminate].
      inversion E'; subst. rewrite E2. rewrite app_nil_r. reflexivity.
    - right. pose proof (proj1 (B l b rest) (ex_intro _ _ E)) as Hb.
      destruct (proj2 (B' l' b rest) Hb) as [l2 E2].
      destruct C' as [(set' & E')|(b' & E')]; rewrite E2 in E'; [destruct b; discriminate|].
      assert (b' = b /\ l2 = l' + count_nl pre' /\ rest' = rest) as (-> & -> & ->).
      { destruct b, b'; inversion E'; subst; auto. }
      assert (pre' = pre) as ->. { rewrite Es in Es'. apply app_inv_tail in Es'. auto. }
      destruct Hb as [(c & -> & Hb)|(-> & Hb)].
      + left. exists pre, rest, c. auto.
      + right. eauto. }
  destruct dbg; [|exact R].
  destruct (over_objset fuel ts Hr Hl l) as [[O (p & E)]|[O E]];
  destruct (over_objset fuel' ts Hr Hl' l') as [[O' (p' & E')]|[O' E']]; try contradiction.
  - right. right. eauto.
  - now rewrite E, E'.
Qed.

(** * The parser over a text *)

(** [p] has used up [x], and [z] is left. *)
Definition stands (x z : bytes) (p : parser lexer_source) : Prop :=
  related (S1 := lexer_source) (S2 := list_source) pending p (list_parser (line_after x) (lex z)).

Lemma stands_new : forall input, stands [] input (parser_new input).
Proof. exact related_new. Qed.

Lemma line_after_app : forall x y, line_after (x ++ y) = line_after x + count_occ ascii_dec y LF.
Proof. intros x y. unfold line_after. rewrite count_occ_app. reflexivity. Qed.

Lemma call_from : forall dbg fuel x z p, fits z -> length z < fuel -> stands x z p ->
  (exists set p', parse_objset dbg fuel p = (Ok set, p') /\ parse dbg z = Ok set /\ stands (x ++ z) [] p') \/
  (exists y z' k msg ts rest p', z = y ++ z' /\
     tokenizes y ts /\ tokenizes z' rest /\ tokenizes (y ++ z') (ts ++ rest) /\ fails_file (ts ++ rest) (k, msg) rest /\
     parse_objset dbg fuel p = (Err (mkParseError (line_after (x ++ y)) k msg), p') /\
     parse dbg z = Err (mkParseError (line_after y) k msg) /\ stands (x ++ y) z' p') \/
  (exists e, fst (parse_objset dbg fuel p) = Panic e /\ parse dbg z = Panic e).
Proof.
  intros dbg fuel x z p Hf Hlen Hs. pose proof (lex_length z) as Hx.
  destruct (parse_objset_lex dbg fuel _ _ Hs) as [E Hrel].
  assert (Hl : length (lex z) < fuel) by lia.
  pose proof (lex_fuel z) as Hl1. fold (fuel_for z) in Hl1.
  pose proof (parse_lex dbg z) as Ep. unfold parse_tokens in Ep.
  destruct (run_shift dbg fuel (fuel_for z) (line_after x) 1 (lex z) (fits_room _ Hf) Hl Hl1)
    as [(set & R1 & R2)|[(pre & rest & c & Es & Hb & R1 & R2)|(e & q & q' & R1 & R2)]];
    rewrite R1 in E, Hrel; rewrite R2 in Ep; cbn [fst snd] in E, Ep, Hrel;
    destruct (parse_objset dbg fuel p) as [o p'] eqn:Ec; cbn [fst snd] in E, Hrel; subst o.
  - left. exists set, p'. split; [reflexivity|]. split; [exact Ep|].
    unfold stands. rewrite line_after_app, <- (count_nl_line z (lex z) (lex_tokenizes z)). exact Hrel.
  - right. left. destruct (tokenizes_split _ _ (lex_tokenizes z) _ _ Es) as (y & z' & Ez & T1 & T2).
    exists y, z', (fst c), (snd c), pre, rest, p'. rewrite Es in Hb.
    pose proof (count_nl_line _ _ T1) as En.
    pose proof T2 as T3. apply tokenizes_iff in T3.
    assert (Hst : stands (x ++ y) z' p').
    { unfold stands. rewrite <- T3, line_after_app, <- En. exact Hrel. }
    split; [exact Ez|]. split; [exact T1|]. split; [exact T2|].
    split; [rewrite <- Ez, <- Es; apply lex_tokenizes|]. split; [now destruct c|].
    split; [now rewrite line_after_app, <- En|]. split; [rewrite Ep, En; reflexivity|exact Hst].
  - right. right. exists e. auto.
Qed.

Lemma reports_from : forall dbg fuel rs p q x z, fits z -> length z < fuel -> stands x z p ->
  calls (parse_objset dbg fuel) p rs q -> reports (parse dbg) fails_file x z rs.
Proof.
  intros dbg fuel rs. induction rs as [|r rs IH]; intros p q x z Hf Hl Hs H; [constructor|].
  destruct (call_from dbg fuel x z p Hf Hl Hs)
    as [(set & p' & E & Ep & Hs')|[(y & z' & k & msg & ts & rest & p' & -> & T1 & T2 & T3 & Hb & E & Ep & Hs')|(e & E & Ep)]].
  - assert (H' : r = Ok set /\ calls (parse_objset dbg fuel) p' rs q).
    { inversion H as [|? ? ? ? ? E' K|? ? ? ? ? E' K]; subst; rewrite E in E'; inversion E'; subst; auto. }
    destruct H' as [-> H']. apply reports_ok; [exact Ep|].
    apply (IH p' q); auto; unfold fits, isize_max in *; cbn [length] in *; lia.
  - assert (H' : r = Err (mkParseError (line_after (x ++ y)) k msg) /\ calls (parse_objset dbg fuel) p' rs q).
    { inversion H as [|? ? ? ? ? E' K|? ? ? ? ? E' K]; subst; rewrite E in E'; inversion E'; subst; auto. }
    destruct H' as [-> H']. rewrite app_length in Hl. unfold fits in Hf. rewrite app_length in Hf.
    apply reports_err with (ts := ts) (rest := rest); auto. apply (IH p' q); auto; unfold fits; lia.
  - inversion H as [|? ? ? ? ? E' K|? ? ? ? ? E' K]; subst; rewrite E' in E; discriminate.
Qed.

Lemma obj_reports : forall dbg input rs q, fits input ->
  calls (parse_objset dbg (fuel_for input)) (parser_new input) rs q -> reports (parse dbg) fails_file [] input rs.
Proof.
  intros dbg input rs q Hf H. apply (reports_from dbg (fuel_for input) rs (parser_new input) q); [exact Hf|unfold fuel_for; lia|apply stands_new|exact H].
Qed.

(** * An error that stays *)

Lemma calls_last : forall S E A (call : S -> outcome E A * S) rs p r q, calls call p (rs ++ [r]) q ->
  exists m, calls call p rs m /\ call m = (r, q).
Proof.
  intros S E A call rs. induction rs as [|r0 rs IH]; intros p r q H; cbn [app] in H.
  - exists p. split; [constructor|]. inversion H as [|? ? ? ? ? C K|? ? ? ? ? C K]; subst; inversion K; subst; exact C.
  - inversion H as [|? ? ? ? ? C K|? ? ? ? ? C K]; subst; destruct (IH _ _ _ K) as (m & K' & C'); exists m; split; auto;
      [eapply calls_ok|eapply calls_err]; eauto.
Qed.

Lemma stands_calls : forall dbg fuel rs p q x z, fits z -> length z < fuel -> stands x z p ->
  calls (parse_objset dbg fuel) p rs q -> exists x' z', x ++ z = x' ++ z' /\ fits z' /\ length z' < fuel /\ stands x' z' q.
Proof.
  intros dbg fuel rs. induction rs as [|r rs IH]; intros p q x z Hf Hl Hs H.
  { inversion H; subst. exists x, z. auto. }
  destruct (call_from dbg fuel x z p Hf Hl Hs)
    as [(set & p' & E & Ep & Hs')|[(y & z' & k & msg & ts & rest & p' & -> & T1 & T2 & T3 & Hb & E & Ep & Hs')|(e & E & Ep)]].
  - assert (H' : calls (parse_objset dbg fuel) p' rs q).
    { inversion H as [|? ? ? ? ? E' K|? ? ? ? ? E' K]; subst; rewrite E in E'; inversion E'; subst; auto. }
    destruct (IH p' q (x ++ z) []) as (x' & z' & E2 & K); auto; try (unfold fits, isize_max in *; cbn [length] in *; lia).
    exists x', z'. split; auto. now rewrite <- E2, app_nil_r.
  - assert (H' : calls (parse_objset dbg fuel) p' rs q).
    { inversion H as [|? ? ? ? ? E' K|? ? ? ? ? E' K]; subst; rewrite E in E'; inversion E'; subst; auto. }
    rewrite app_length in Hl. unfold fits in Hf. rewrite app_length in Hf.
    destruct (IH p' q (x ++ y) z') as (x' & z2 & E2 & K); auto; try (unfold fits; lia).
    exists x', z2. split; auto. now rewrite <- E2, app_assoc.
  - inversion H as [|? ? ? ? ? E' K|? ? ? ? ? E' K]; subst; rewrite E' in E; discriminate.
Qed.

Definition unknown (t : bytes) : Prop := ~ In t keywords /\ t <> nl /\ t <> lit "o" /\ t <> lit "mtllib".

Lemma unknown_libraries : forall t ts libs rest, unknown t -> reads_libraries (t :: ts) libs rest -> rest = t :: ts.
Proof. intros t ts libs rest (_ & H1 & _ & H2) H. inversion H; subst; congruence. Qed.

Lemma unknown_statement : forall t ts base now s rest, unknown t -> ~ reads_statement base now (t :: ts) s rest.
Proof. intros t ts base now s rest (H & _) K. apply H. inversion K; subst; cbn; tauto. Qed.

Lemma unknown_reaches : forall t ts, unknown t -> forall done cur rest, reaches (t :: ts) done cur rest -> rest = t :: ts.
Proof.
  intros t ts U done cur rest H.
  induction H as [libs rest H|rest H IH Ho|done name rest H IH|done o rest H IH|done name ss s mid rest H IH Hs|done o rest H IH]; auto.
  - eapply unknown_libraries; eauto.
  - destruct U as (_ & _ & U & _). congruence.
  - destruct U as (_ & U & _). congruence.
  - subst mid. exfalso. eapply unknown_statement; eauto.
Qed.

Lemma unknown_quiet : forall t ts, unknown t -> ~ file_over (t :: ts).
Proof.
  intros t ts U H. apply file_over_iff in H. destruct H as (done & n & ss & mid & H & K).
  apply (unknown_reaches t ts U) in H. subst mid. destruct U as [U _]. apply U. inversion K; subst; cbn; tauto.
Qed.

Lemma unknown_fails : forall t ts, unknown t -> fails_file (t :: ts) (InvalidObjectStatement, msg_statement t) (t :: ts).
Proof.
  intros t ts (U1 & U2 & U3 & U4). apply fails_first with (libs := []) (mid := t :: ts).
  - now apply libraries_end.
  - exact U3.
  - apply fails_here. now apply fails_unknown.
Qed.

Lemma run_unknown : forall dbg fuel l t ts, room no_counts (t :: ts) -> length (t :: ts) < fuel -> unknown t ->
  parse_objset dbg fuel (list_parser l (t :: ts)) =
    (Err (mkParseError l InvalidObjectStatement (msg_statement t)), list_parser l (t :: ts)).
Proof.
  intros dbg fuel l t ts Hr Hl U.
  assert (R : parse_objset false fuel (list_parser l (t :: ts)) =
    (Err (mkParseError l InvalidObjectStatement (msg_statement t)), list_parser l (t :: ts))).
  { destruct (proj2 (bad_at_objset fuel (t :: ts) Hr Hl l (Fails InvalidObjectStatement (msg_statement t)) (t :: ts))) as [l' E].
    - left. exists (InvalidObjectStatement, msg_statement t). split; auto. now apply unknown_fails.
    - destruct (run_cases_from false fuel l (t :: ts) Hl) as (pre & rest & Es & [(set & E')|(b & E')]); rewrite E in E'; [discriminate|].
      assert (rest = t :: ts) as -> by (destruct b; inversion E'; auto).
      assert (pre = []) as ->. { destruct pre; auto. apply (f_equal (@length bytes)) in Es. rewrite app_length in Es. cbn in Es. lia. }
      change (count_nl []) with 0 in E'. rewrite Nat.add_0_r in E'. rewrite E, E'. destruct b; inversion E'; subst; reflexivity. }
  destruct dbg; [|exact R].
  destruct (over_objset fuel (t :: ts) Hr Hl l) as [[O _]|[_ E]]; [exfalso; eapply unknown_quiet; eauto|]. now rewrite E.
Qed.

Lemma not_mtllib : forall t, msg_statement t <> msg_statement (lit "mtllib") -> t <> lit "mtllib".
Proof. intros t H ->. auto. Qed.

Lemma fails_unknown_rest : forall T k msg rest, fails_file T (k, msg) rest -> k = InvalidObjectStatement ->
  exists t ts, rest = t :: ts /\ msg = msg_statement t /\ ~ In t keywords /\ t <> nl /\ t <> lit "o".
Proof.
  intros T k msg rest H ->. apply fails_file_at in H. destruct H as (mid & [(done & n & ss & Hr & Hs)|(done & _ & Hh)]).
  - remember (InvalidObjectStatement, msg) as c eqn:Ec. destruct Hs;
      try (match goal with K : not_float _ _ _ |- _ => apply not_float_kind in K; subst; cbn in K; contradiction end);
      try discriminate Ec.
    + subst. match goal with K : bad_number _ _ _ _ |- _ => apply bad_number_kind in K; cbn in K; contradiction end.
    + subst. match goal with K : bad_ref _ _ _ _ |- _ => apply bad_ref_kind in K; cbn in K; contradiction end.
    + injection Ec as <-. eauto 8.
  - inversion Hh.
Qed.

Lemma stands_stuck : forall dbg fuel x z p t ts, fits z -> length z < fuel -> stands x z p -> lex z = t :: ts -> unknown t ->
  exists p', parse_objset dbg fuel p = (Err (mkParseError (line_after x) InvalidObjectStatement (msg_statement t)), p') /\ stands x z p'.
Proof.
  intros dbg fuel x z p t ts Hf Hl Hs E U. pose proof (fits_room _ Hf) as Hr. pose proof (lex_length z) as Hx.
  destruct (parse_objset_lex dbg fuel _ _ Hs) as [E1 Hrel].
  rewrite E in E1, Hrel, Hr, Hx. rewrite (run_unknown dbg fuel (line_after x) t ts Hr) in E1, Hrel; auto; try lia.
  destruct (parse_objset dbg fuel p) as [o p']. cbn [fst snd] in *. subst o. exists p'. split; auto.
  unfold stands. rewrite E. exact Hrel.
Qed.

Lemma obj_stuck : forall dbg input rs e p, fits input ->
  calls (parse_objset dbg (fuel_for input)) (parser_new input) (rs ++ [Err e]) p ->
  err_kind e = InvalidObjectStatement -> err_message e <> msg_statement (lit "mtllib") ->
  forall n, exists q, calls (parse_objset dbg (fuel_for input)) p (repeat (Err e) n) q.
Proof.
  intros dbg input rs e p Hf H Hk Hm. destruct (calls_last _ _ _ _ _ _ _ _ H) as (m & Hc & E).
  destruct (stands_calls dbg (fuel_for input) rs (parser_new input) m [] input Hf) as (x & z & Ei & Hz & Hl & Hs);
    [unfold fuel_for; lia|apply stands_new|exact Hc|].
  destruct (call_from dbg (fuel_for input) x z m Hz Hl Hs)
    as [(set & p' & E' & _)|[(y & z' & k & msg & ts & rest & p' & -> & T1 & T2 & T3 & Hb & E' & Ep & Hs')|(x' & E' & _)]];
    rewrite E in E'; try discriminate.
  inversion E'; subst e p'. cbn [err_kind err_message] in Hk, Hm.
  destruct (fails_unknown_rest _ _ _ _ Hb Hk) as (t & ts' & -> & -> & U1 & U2 & U3). subst k.
  assert (U : unknown t). { repeat split; auto. now apply not_mtllib. }
  apply tokenizes_iff in T2. symmetry in T2.
  assert (Hf' : fits z'). { unfold fits in *. rewrite app_length in Hz. lia. }
  assert (Hl' : length z' < fuel_for input). { rewrite app_length in Hl. lia. }
  clear E E' H. revert p Hs'. intros p Hs' n. revert p Hs'. induction n as [|n IH]; intros p Hs'.
  - exists p. constructor.
  - destruct (stands_stuck dbg _ _ _ _ _ _ Hf' Hl' Hs' T2 U) as (p2 & E & Hs2).
    destruct (IH p2 Hs2) as (q & Hq). exists q. cbn [repeat]. eapply calls_err; eauto.
Qed.
