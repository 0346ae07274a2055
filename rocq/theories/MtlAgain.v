(** Proofs about calling [parse_mtlset] again. *)
From Verif Require Import RelProofs SourceProofs ConsumeProofs Again MtlModel MtlSpec AgainSpec LexerProofs TotalProofs TextProofs MtlTop MtlFacts.
Local Open Scope list_scope.

(** Only the lines of errors depend on where a run starts. *)
Lemma run_shift : forall fuel fuel' l l' ts, length ts < fuel -> length ts < fuel' ->
  (exists set, parse_mtlset fuel (list_parser l ts) = (Ok set, list_parser (l + count_nl ts) []) /\
     parse_mtlset fuel' (list_parser l' ts) = (Ok set, list_parser (l' + count_nl ts) [])) \/
  (exists pre rest c, ts = pre ++ rest /\ fails_file ts c rest /\
     parse_mtlset fuel (list_parser l ts) =
       (Err (mkParseError (l + count_nl pre) (fst c) (snd c)), list_parser (l + count_nl pre) rest) /\
     parse_mtlset fuel' (list_parser l' ts) =
       (Err (mkParseError (l' + count_nl pre) (fst c) (snd c)), list_parser (l' + count_nl pre) rest)).
Proof.
  intros fuel fuel' l l' ts Hl Hl'. destruct (file_cases ts) as [(f & Hf)|(c & rest & Hf)].
  - left. exists (file_means f). split; now apply run_file.
  - right. destruct (run_fails fuel ts c rest l Hf Hl) as (pre & Es & E).
    destruct (run_fails fuel' ts c rest l' Hf Hl') as (pre' & Es' & E').
    assert (pre' = pre) as ->. { rewrite Es in Es'. apply app_inv_tail in Es'. auto. }
    exists pre, rest, c. auto.
Qed.

Lemma call_from : forall fuel x z p, length z < fuel -> stands x z p ->
  (exists set p', parse_mtlset fuel p = (Ok set, p') /\ parse z = Ok set /\ stands (x ++ z) [] p') \/
  (exists y z' k msg ts rest p', z = y ++ z' /\
     tokenizes y ts /\ tokenizes z' rest /\ tokenizes (y ++ z') (ts ++ rest) /\ fails_file (ts ++ rest) (k, msg) rest /\
     parse_mtlset fuel p = (Err (mkParseError (line_after (x ++ y)) k msg), p') /\
     parse z = Err (mkParseError (line_after y) k msg) /\ stands (x ++ y) z' p').
Proof.
  intros fuel x z p Hlen Hs. pose proof (lex_length z) as Hx.
  destruct (parse_mtlset_lex fuel _ _ Hs) as [E Hrel].
  assert (Hl : length (lex z) < fuel) by lia.
  pose proof (lex_fuel z) as Hl1. fold (fuel_for z) in Hl1.
  pose proof (run_input z) as Ep.
  destruct (run_shift fuel (fuel_for z) (line_after x) 1 (lex z) Hl Hl1)
    as [(set & R1 & R2)|(pre & rest & c & Es & Hb & R1 & R2)];
    rewrite R1 in E, Hrel; rewrite R2 in Ep; cbn [fst snd] in E, Ep, Hrel;
    destruct (parse_mtlset fuel p) as [o p'] eqn:Ec; cbn [fst snd] in E, Hrel; subst o.
  - left. exists set, p'. split; [reflexivity|]. split; [exact Ep|].
    unfold stands. rewrite line_after_app, <- (count_nl_line z (lex z) (lex_tokenizes z)). exact Hrel.
  - right. destruct (tokenizes_split _ _ (lex_tokenizes z) _ _ Es) as (y & z' & Ez & T1 & T2).
    exists y, z', (fst c), (snd c), pre, rest, p'. rewrite Es in Hb.
    pose proof (count_nl_line _ _ T1) as En.
    pose proof T2 as T3. apply tokenizes_iff in T3.
    assert (Hst : stands (x ++ y) z' p').
    { unfold stands. rewrite <- T3, line_after_app, <- En. exact Hrel. }
    split; [exact Ez|]. split; [exact T1|]. split; [exact T2|].
    split; [rewrite <- Ez, <- Es; apply lex_tokenizes|]. split; [now destruct c|].
    split; [now rewrite line_after_app, <- En|]. split; [rewrite Ep, En; reflexivity|exact Hst].
Qed.

Lemma reports_from : forall fuel rs p q x z, length z < fuel -> stands x z p ->
  calls (parse_mtlset fuel) p rs q -> reports parse fails_file x z rs.
Proof.
  intros fuel rs. induction rs as [|r rs IH]; intros p q x z Hl Hs H; [constructor|].
  destruct (call_from fuel x z p Hl Hs)
    as [(set & p' & E & Ep & Hs')|(y & z' & k & msg & ts & rest & p' & -> & T1 & T2 & T3 & Hb & E & Ep & Hs')].
  - assert (H' : r = Ok set /\ calls (parse_mtlset fuel) p' rs q).
    { inversion H as [|? ? ? ? ? E' K|? ? ? ? ? E' K]; subst; rewrite E in E'; inversion E'; subst; auto. }
    destruct H' as [-> H']. apply reports_ok; [exact Ep|].
    apply (IH p' q); auto; cbn [length] in *; lia.
  - assert (H' : r = Err (mkParseError (line_after (x ++ y)) k msg) /\ calls (parse_mtlset fuel) p' rs q).
    { inversion H as [|? ? ? ? ? E' K|? ? ? ? ? E' K]; subst; rewrite E in E'; inversion E'; subst; auto. }
    destruct H' as [-> H']. rewrite app_length in Hl.
    apply reports_err with (ts := ts) (rest := rest); auto. apply (IH p' q); auto; lia.
Qed.

Lemma mtl_reports : forall input rs q,
  calls (parse_mtlset (fuel_for input)) (parser_new input) rs q -> reports parse fails_file [] input rs.
Proof.
  intros input rs q H. apply (reports_from (fuel_for input) rs (parser_new input) q); [unfold fuel_for; lia|apply stands_new|exact H].
Qed.

(** * An error that stays *)

Lemma stands_calls : forall fuel rs p q x z, length z < fuel -> stands x z p ->
  calls (parse_mtlset fuel) p rs q -> exists x' z', x ++ z = x' ++ z' /\ length z' < fuel /\ stands x' z' q.
Proof.
  intros fuel rs. induction rs as [|r rs IH]; intros p q x z Hl Hs H.
  { inversion H; subst. exists x, z. auto. }
  destruct (call_from fuel x z p Hl Hs)
    as [(set & p' & E & Ep & Hs')|(y & z' & k & msg & ts & rest & p' & -> & T1 & T2 & T3 & Hb & E & Ep & Hs')].
  - assert (H' : calls (parse_mtlset fuel) p' rs q).
    { inversion H as [|? ? ? ? ? E' K|? ? ? ? ? E' K]; subst; rewrite E in E'; inversion E'; subst; auto. }
    destruct (IH p' q (x ++ z) []) as (x' & z' & E2 & K); auto; try (cbn [length] in *; lia).
    exists x', z'. split; auto. now rewrite <- E2, app_nil_r.
  - assert (H' : calls (parse_mtlset fuel) p' rs q).
    { inversion H as [|? ? ? ? ? E' K|? ? ? ? ? E' K]; subst; rewrite E in E'; inversion E'; subst; auto. }
    rewrite app_length in Hl.
    destruct (IH p' q (x ++ y) z') as (x' & z2 & E2 & K); auto; try lia.
    exists x', z2. split; auto. now rewrite <- E2, app_assoc.
Qed.

Lemma run_unknown : forall fuel l t ts, length (t :: ts) < fuel -> t <> nl -> t <> lit "newmtl" ->
  parse_mtlset fuel (list_parser l (t :: ts)) =
    (Err (mkParseError l ExpectedEndOfInput (msg_not_end t)), list_parser l (t :: ts)).
Proof.
  intros fuel l t ts Hl H1 H2.
  destruct (run_fails fuel (t :: ts) (ExpectedEndOfInput, msg_not_end t) (t :: ts) l) as (pre & Es & E); auto.
  - apply (fails_start 0); auto.
  - assert (pre = []) as ->. { destruct pre; auto. apply (f_equal (@length bytes)) in Es. rewrite app_length in Es. cbn in Es. lia. }
    change (count_nl []) with 0 in E. rewrite Nat.add_0_r in E. exact E.
Qed.

Lemma stands_stuck : forall fuel x z p t ts, length z < fuel -> stands x z p -> lex z = t :: ts -> t <> nl -> t <> lit "newmtl" ->
  exists p', parse_mtlset fuel p = (Err (mkParseError (line_after x) ExpectedEndOfInput (msg_not_end t)), p') /\ stands x z p'.
Proof.
  intros fuel x z p t ts Hl Hs E U1 U2. pose proof (lex_length z) as Hx.
  destruct (parse_mtlset_lex fuel _ _ Hs) as [E1 Hrel].
  rewrite E in E1, Hrel, Hx. rewrite (run_unknown fuel (line_after x) t ts) in E1, Hrel; auto; try lia.
  destruct (parse_mtlset fuel p) as [o p']. cbn [fst snd] in *. subst o. exists p'. split; auto.
  unfold stands. rewrite E. exact Hrel.
Qed.

Lemma fails_unknown_rest : forall T k msg rest, fails_file T (k, msg) rest ->
  k = ErrorParsingMaterial \/ k = ExpectedEndOfInput ->
  exists t ts, rest = t :: ts /\ (msg = msg_material t \/ msg = msg_not_end t) /\ t <> nl /\ t <> lit "newmtl".
Proof.
  intros T k msg rest H Hk. inversion H as [n t r H1 H2|f ts Hf|f ts nm ss ts' ts'' c r Hf Hs Hb]; subst.
  - exists t, r. auto.
  - destruct Hk; discriminate.
  - inversion Hb; subst; try (match goal with K : not_float _ _ _ |- _ => inversion K; subst end);
      try (destruct Hk; discriminate). eauto 8.
Qed.

Lemma mtl_stuck : forall input rs e p,
  calls (parse_mtlset (fuel_for input)) (parser_new input) (rs ++ [Err e]) p ->
  err_kind e = ErrorParsingMaterial \/ err_kind e = ExpectedEndOfInput ->
  exists t, (err_message e = msg_material t \/ err_message e = msg_not_end t) /\
    forall n, exists q, calls (parse_mtlset (fuel_for input)) p
      (repeat (Err (mkParseError (err_line_number e) ExpectedEndOfInput (msg_not_end t))) n) q.
Proof.
  intros input rs e p H Hk. destruct (calls_last _ _ _ _ _ _ _ _ H) as (m & Hc & E).
  destruct (stands_calls (fuel_for input) rs (parser_new input) m [] input) as (x & z & Ei & Hl & Hs);
    [unfold fuel_for; lia|apply stands_new|exact Hc|].
  destruct (call_from (fuel_for input) x z m Hl Hs)
    as [(set & p' & E' & _)|(y & z' & k & msg & ts & rest & p' & -> & T1 & T2 & T3 & Hb & E' & Ep & Hs')];
    rewrite E in E'; try discriminate.
  inversion E'; subst e p'. cbn [err_kind err_message err_line_number] in *.
  destruct (fails_unknown_rest _ _ _ _ Hb Hk) as (t & ts' & -> & Hm & U1 & U2).
  exists t. split; [exact Hm|].
  apply tokenizes_iff in T2. symmetry in T2.
  assert (Hl' : length z' < fuel_for input). { rewrite app_length in Hl. lia. }
  clear E E' H Ep. revert p Hs'. intros p Hs' n. revert p Hs'. induction n as [|n IH]; intros p Hs'.
  - exists p. constructor.
  - destruct (stands_stuck _ _ _ _ _ _ Hl' Hs' T2 U1 U2) as (p2 & E & Hs2).
    destruct (IH p2 Hs2) as (q & Hq). exists q. cbn [repeat]. eapply calls_err; eauto.
Qed.
