(** The line breaks and blanks of a text are determined by the text without them. *)
From Coq Require Import Lia.
From Verif Require Import PrettySpec.
Local Open Scope char_scope.
Local Open Scope list_scope.

(** * The first byte *)

Lemma rev_cons_more : forall (c : ascii) (r : list ascii), r <> [] -> exists d k, rev r = d :: k /\ rev (c :: r) = d :: k ++ [c].
Proof.
  intros c r N. cbn [rev]. destruct (rev r) as [|d k] eqn:E.
  - apply (f_equal (@rev ascii)) in E. rewrite rev_involutive in E. contradiction.
  - exists d, k. auto.
Qed.

Lemma joint_more : forall c r n, r <> [] -> joint (c :: r) n = c :: joint r n.
Proof.
  intros c r n N. destruct n as [|e n]; [reflexivity|]. destruct (rev_cons_more c r N) as (d & k & E1 & E2). unfold joint, without_comma.
  rewrite E2, E1. destruct (closing e); [|reflexivity]. destruct (Ascii.eqb d ","); [|reflexivity]. now rewrite rev_app_distr.
Qed.

Lemma joined_more : forall (c : ascii) (r : list ascii) (R : list bytes), r <> [] -> joined ((c :: r) :: R) = c :: joined (r :: R).
Proof.
  intros c r [|n R] N; [reflexivity|]. change (joint (c :: r) n ++ joined (n :: R) = c :: (joint r n ++ joined (n :: R))).
  now rewrite joint_more.
Qed.

Lemma ends_item_more : forall c r, r <> [] -> ends_item (c :: r) = ends_item r.
Proof. intros c r N. destruct (rev_cons_more c r N) as (d & k & E1 & E2). unfold ends_item. now rewrite E1, E2. Qed.

Lemma ends_opening_more : forall c r, r <> [] -> ends_opening (c :: r) = ends_opening r.
Proof. intros c r N. destruct (rev_cons_more c r N) as (d & k & E1 & E2). unfold ends_opening. now rewrite E1, E2. Qed.

Definition visible (l : bytes) : Prop := exists c t, l = c :: t /\ c <> " ".

(** What a line needs of the next one. *)
Definition before (l : bytes) (R : list bytes) : Prop :=
  match R with [] => True | n :: _ => ends_item l = true /\ (ends_opening l = true -> starts_closing n = false) end.

Fixpoint sound (ls : list bytes) : Prop :=
  match ls with
  | [] => True
  | l :: r => whole false l = true /\ kept false l = true /\ starts_item l = true /\ visible l /\ before l r /\ sound r
  end.

Lemma before_more : forall c r R, r <> [] -> before (c :: r) R -> before r R.
Proof. intros c r [|n R] N; [auto|]. cbn [before]. now rewrite ends_item_more, ends_opening_more. Qed.

Lemma joined_item : forall d t R, d <> "," -> exists k, joined ((d :: t) :: R) = d :: k.
Proof.
  intros d t R N. destruct t as [|e t]; [|rewrite joined_more by discriminate; eauto]. destruct R as [|n R]; [now exists []|].
  cbn [joined]. unfold joint, without_comma. cbn [rev app]. apply Ascii.eqb_neq in N. rewrite N. destruct n as [|e n]; [now eexists|].
  destruct (closing e); eexists; reflexivity.
Qed.

Lemma sound_first : forall l R, sound (l :: R) -> exists d t k, l = d :: t /\ joined (l :: R) = d :: k /\ d <> " " /\ d <> ",".
Proof.
  intros l R (_ & _ & I & (c & t & -> & V) & _). cbn [starts_item] in I. apply negb_true_iff, Ascii.eqb_neq in I.
  destruct (joined_item c t R I) as (k & E). exists c, t, k. auto.
Qed.

(** The last byte of a line that is not the last. *)
Lemma last_byte : forall c n R, before [c] (n :: R) -> sound (n :: R) -> exists d k, joined (n :: R) = d :: k /\ d <> " " /\ d <> "," /\
  ((c = "," /\ closing d = true /\ joined ([c] :: n :: R) = (if Ascii.eqb d "}" then [" "] else []) ++ d :: k) \/
   (c = "," /\ closing d = false /\ joined ([c] :: n :: R) = "," :: " " :: d :: k) \/
   (opening c = true /\ closing d = false /\ joined ([c] :: n :: R) = c :: (if Ascii.eqb c "{" then [" "] else []) ++ d :: k)).
Proof.
  intros c n R [B1 B2] H. destruct (sound_first n R H) as (d & t & k & En & E & N1 & N2). exists d, k. split; [exact E|]. split; [exact N1|]. split; [exact N2|].
  assert (J : joined ([c] :: n :: R) = joint [c] n ++ d :: k) by (rewrite <- E; reflexivity). subst n. clear H E.
  rewrite J. clear J. cbn [starts_closing] in B2. unfold ends_item, ends_opening in *. cbn [rev app] in *.
  unfold joint, without_comma. cbn [rev app]. destruct (opening c) eqn:O.
  - right; right. split; [reflexivity|]. specialize (B2 eq_refl). split; [exact B2|]. rewrite B2.
    destruct (Ascii.eqb_spec c ","); [subst c; discriminate O|]. reflexivity.
  - cbn [orb] in B1. apply Ascii.eqb_eq in B1. subst c. destruct (closing d); [left|right; left]; auto.
Qed.

(** * One line after the other *)

(** What may stand at the start of the rest of a line. *)
Definition may_start (start : bool) (l : bytes) : Prop := if start then starts_item l = true else starts_closing l = false.

(** What the rest of a line that goes on starts with in the joined text. *)
Lemma rest_first : forall r R, r <> [] -> before r R -> sound R -> exists e k, joined (r :: R) = e :: k /\
  ((exists t, r = e :: t) \/ (r = [","] /\ e <> "}")).
Proof.
  intros [|c r] R N B H; [contradiction|]. destruct r as [|d r].
  - destruct R as [|n R]; [exists c, []; eauto|]. destruct (last_byte c n R B H) as (d & k & E & N1 & N2 & [(-> & C & J)|[(-> & C & J)|(O & C & J)]]).
    + rewrite J. destruct (Ascii.eqb_spec d "}"); cbn [app]; [exists " ", (d :: k)|exists d, k]; (split; [reflexivity|right; split; [reflexivity|auto]]); discriminate.
    + rewrite J. eexists _, _. split; [reflexivity|]. eauto.
    + rewrite J. eexists _, _. split; [reflexivity|]. eauto.
  - rewrite joined_more by discriminate. eexists _, _. split; [reflexivity|]. eauto.
Qed.

(** One text cannot end a line where another goes on. *)
Lemma not_mixed : forall c R start c' r' R', may_start start [c] -> before [c] R -> sound R -> c <> "034" ->
  r' <> [] -> may_start start (c' :: r') -> whole false (c' :: r') = true -> kept false (c' :: r') = true -> before (c' :: r') R' -> sound R' ->
  joined ([c] :: R) = joined ((c' :: r') :: R') -> False.
Proof.
  intros c R start c' r' R' S B H Q N S' W K B' H' E. rewrite (joined_more c' r' R') in E by exact N.
  destruct (rest_first r' R' N (before_more _ _ _ N B') H') as (e & k & Er & F). rewrite Er in E.
  destruct R as [|n R]; [discriminate E|].
  destruct (last_byte c n R B H) as (d & k' & _ & N1 & N2 & [(-> & C & J)|[(-> & C & J)|(O & C & J)]]); rewrite J in E; clear J.
  - destruct start; cbn [may_start] in S, S'; [discriminate S|]. cbn [starts_closing] in S'. destruct (Ascii.eqb_spec d "}"); cbn [app] in E.
    + injection E as <- <- ->. subst d. destruct F as [(t & ->)|(-> & F)]; [discriminate K|contradiction].
    + injection E as <- _. congruence.
  - injection E as <- <- _. cbn [whole] in W. destruct r'; [contradiction|]. discriminate W.
  - destruct r' as [|x r']; [contradiction|]. cbn [whole] in W.
    assert (c' = c) by (destruct (Ascii.eqb c "{"); cbn [app] in E; congruence). subst c'.
    apply Ascii.eqb_neq in Q. rewrite Q, O in W. apply andb_true_iff in W. destruct W as [X _].
    assert (e = " " \/ e = d) by (destruct (Ascii.eqb c "{"); cbn [app] in E; injection E as <- _; auto).
    destruct F as [(t & F)|(F & _)]; injection F; intros; subst; [|discriminate X]. destruct H0; subst; [discriminate X|congruence].
Qed.

(** Lines that end. *)
Lemma ends_last : forall c c' n' R' start, may_start start [c] -> may_start start [c'] -> before [c'] (n' :: R') -> sound (n' :: R') ->
  [c] = joined ([c'] :: n' :: R') -> False.
Proof.
  intros c c' n' R' start S S' B H E.
  destruct (last_byte c' n' R' B H) as (d & k & _ & N1 & N2 & [(-> & C & J)|[(-> & C & J)|(O & C & J)]]); rewrite J in E; clear J.
  - destruct start; cbn [may_start] in S, S'; [discriminate S'|]. destruct (Ascii.eqb d "}"); cbn [app] in E; [discriminate E|].
    injection E as <- _. cbn [starts_closing] in S. congruence.
  - discriminate E.
  - destruct (Ascii.eqb c' "{"); discriminate E.
Qed.

Lemma ends_both : forall c c' n R n' R', before [c] (n :: R) -> before [c'] (n' :: R') -> sound (n :: R) -> sound (n' :: R') ->
  joined ([c] :: n :: R) = joined ([c'] :: n' :: R') -> c = c' /\ joined (n :: R) = joined (n' :: R').
Proof.
  intros c c' n R n' R' B B' H H' E.
  destruct (last_byte c n R B H) as (d & k & D & N1 & N2 & [(-> & C & J)|[(-> & C & J)|(O & C & J)]]);
  destruct (last_byte c' n' R' B' H') as (d' & k' & D' & N1' & N2' & [(-> & C' & J')|[(-> & C' & J')|(O' & C' & J')]]);
  rewrite J, J' in E; clear J J'; rewrite D, D'; clear D D' B B' H H'.
  - split; [reflexivity|]. destruct (Ascii.eqb d "}"), (Ascii.eqb d' "}"); cbn [app] in E; congruence.
  - destruct (Ascii.eqb d "}"); cbn [app] in E; congruence.
  - exfalso. destruct (Ascii.eqb d "}"); cbn [app] in E; injection E as E _; subst c'; [discriminate O'|]. clear - C O'. unfold closing, opening in *.
    destruct (Ascii.eqb_spec d "}"); [subst; discriminate O'|]. destruct (Ascii.eqb_spec d ")"); [subst; discriminate O'|].
    destruct (Ascii.eqb_spec d "]"); [subst; discriminate O'|]. discriminate C.
  - destruct (Ascii.eqb d' "}"); cbn [app] in E; congruence.
  - split; [reflexivity|]. congruence.
  - exfalso. injection E as <- _. discriminate O'.
  - exfalso. destruct (Ascii.eqb d' "}"); cbn [app] in E; injection E as E _; subst c; [discriminate O|]. clear - C' O. unfold closing, opening in *.
    destruct (Ascii.eqb_spec d' "}"); [subst; discriminate O|]. destruct (Ascii.eqb_spec d' ")"); [subst; discriminate O|].
    destruct (Ascii.eqb_spec d' "]"); [subst; discriminate O|]. discriminate C'.
  - exfalso. injection E as -> _. discriminate O.
  - assert (c = c') by congruence. subst c'. split; [reflexivity|]. injection E as E. now apply app_inv_head in E.
Qed.

Lemma joined_some : forall l R, l <> [] -> before l R -> sound R -> joined (l :: R) <> [].
Proof. intros l R N B H. destruct (rest_first l R N B H) as (e & k & -> & _). discriminate. Qed.

Lemma quoted_before : forall c R, c = "034" -> before [c] R -> R = [].
Proof. intros c [|n R] -> B; [reflexivity|]. destruct B as [B _]. discriminate B. Qed.

Lemma same_lines : forall n q start l l' R R', length (concat (l :: R)) <= n -> l <> [] -> l' <> [] ->
  whole q l = true -> kept q l = true -> whole q l' = true -> kept q l' = true ->
  (q = false -> may_start start l /\ may_start start l') ->
  before l R -> before l' R' -> sound R -> sound R' -> joined (l :: R) = joined (l' :: R') -> l = l' /\ R = R'.
Proof.
  induction n as [|n IH]; intros q start l l' R R' L N N' W K W' K' S B B' H H' E.
  { destruct l; [contradiction|]. cbn in L. lia. }
  destruct l as [|c r]; [contradiction|]. destruct l' as [|c' r']; [contradiction|].
  assert (Lr : length (concat (r :: R)) <= n) by (cbn in L; cbn; lia).
  destruct r as [|x r].
  - (* the line ends *)
    destruct r' as [|x' r'].
    + destruct R as [|m R].
      * destruct R' as [|m' R']; [cbn in E; injection E as <-; auto|]. exfalso.
        destruct q.
        -- cbn [kept] in K'. destruct (Ascii.eqb c' "092"); [discriminate K'|]. destruct (Ascii.eqb_spec c' "034"); [|discriminate K'].
           apply quoted_before in B'; [discriminate B'|assumption].
        -- destruct (S eq_refl) as [S1 S2]. exact (ends_last c c' m' R' start S1 S2 B' H' E).
      * destruct R' as [|m' R'].
        -- exfalso. destruct q.
           ++ cbn [kept] in K. destruct (Ascii.eqb c "092"); [discriminate K|]. destruct (Ascii.eqb_spec c "034"); [|discriminate K].
              apply quoted_before in B; [discriminate B|assumption].
           ++ destruct (S eq_refl) as [S1 S2]. exact (ends_last c' c m R start S2 S1 B H (eq_sym E)).
        -- destruct (ends_both _ _ _ _ _ _ B B' H H' E) as [-> E2]. destruct H as (W1 & K1 & I1 & V1 & B1 & H1). destruct H' as (W2 & K2 & I2 & V2 & B2 & H2).
           destruct (IH false true m m' R R') as [-> ->]; auto.
           ++ destruct V1 as (? & ? & -> & _); discriminate.
           ++ destruct V2 as (? & ? & -> & _); discriminate.
    + exfalso. destruct q.
      * cbn [kept] in K. destruct (Ascii.eqb c "092"); [discriminate K|]. destruct (Ascii.eqb_spec c "034"); [|discriminate K].
        apply quoted_before in B; [|assumption]. subst R. rewrite (joined_more c' (x' :: r') R') in E by discriminate. cbn in E. injection E as _ E.
        symmetry in E. revert E. apply joined_some; auto; [discriminate|]. eapply before_more; eauto. discriminate.
      * destruct (S eq_refl) as [S1 S2]. apply (not_mixed c R start c' (x' :: r') R' S1 B H); auto; [|discriminate].
        intros ->. discriminate K.
  - destruct r' as [|x' r'].
    + exfalso. destruct q.
      * cbn [kept] in K'. destruct (Ascii.eqb c' "092"); [discriminate K'|]. destruct (Ascii.eqb_spec c' "034"); [|discriminate K'].
        apply quoted_before in B'; [|assumption]. subst R'. rewrite (joined_more c (x :: r) R) in E by discriminate. cbn in E. injection E as _ E.
        revert E. apply joined_some; auto; [discriminate|]. eapply before_more; eauto. discriminate.
      * destruct (S eq_refl) as [S1 S2]. apply (not_mixed c' R' start c (x :: r) R S2 B' H'); auto; [|discriminate].
        intros ->. discriminate K'.
    + rewrite (joined_more c (x :: r) R), (joined_more c' (x' :: r') R') in E by discriminate. injection E as <- E.
      change (joined ((x :: r) :: R) = joined ((x' :: r') :: R')) in E.
      apply before_more in B; [|discriminate]. apply before_more in B'; [|discriminate].
      cbn [whole kept] in W, K, W', K'. destruct q.
      * destruct (Ascii.eqb c "092").
        -- assert (N1 : r <> []) by (intros ->; discriminate K). assert (N2 : r' <> []) by (intros ->; discriminate K').
           rewrite (joined_more x r R N1), (joined_more x' r' R' N2) in E. injection E as <- E.
           change (joined (r :: R) = joined (r' :: R')) in E.
           apply before_more in B; [|exact N1]. apply before_more in B'; [|exact N2].
           destruct (IH true true r r' R R') as [-> ->]; auto; [cbn in Lr; cbn; lia|discriminate].
        -- destruct (Ascii.eqb c "034").
           ++ apply andb_true_iff in K, K'. destruct K as [A K], K' as [A' K']. apply negb_true_iff in A, A'.
              destruct (IH false false (x :: r) (x' :: r') R R') as [E1 ->]; auto; try discriminate. now rewrite E1.
           ++ destruct (IH true true (x :: r) (x' :: r') R R') as [E1 ->]; auto; try discriminate. now rewrite E1.
      * destruct (Ascii.eqb c "034").
        -- destruct (IH true true (x :: r) (x' :: r') R R') as [E1 ->]; auto; try discriminate. now rewrite E1.
        -- apply andb_true_iff in K, K', W, W'. destruct K as [A K], K' as [A' K'], W as [Z W], W' as [Z' W'].
           destruct (opening c).
           ++ destruct (IH false true (x :: r) (x' :: r') R R') as [E1 ->]; auto; try discriminate; [|now rewrite E1].
              intros _. cbn [may_start starts_item]. split; apply negb_true_iff, Ascii.eqb_neq; intros ->; discriminate.
           ++ cbn [orb] in A, A'. apply negb_true_iff in A, A'.
              destruct (IH false false (x :: r) (x' :: r') R R') as [E1 ->]; auto; try discriminate. now rewrite E1.
Qed.

(** * Whole texts *)

Lemma unindent_line : forall n c t, c <> " " -> unindent (repeat " " n ++ c :: t) = c :: t.
Proof.
  intros n c t N. apply Ascii.eqb_neq in N. induction n as [|n IH]; cbn [repeat app unindent]; [now rewrite N|exact IH].
Qed.

Lemma whole_line : forall n t, whole false (repeat " " n ++ t) = true -> whole false t = true.
Proof.
  induction n as [|n IH]; intros t H; [exact H|]. apply IH. cbn [repeat app whole] in H. change (Ascii.eqb " " "034") with false in H. cbv iota in H.
  destruct (repeat " " n ++ t); [reflexivity|]. apply andb_true_iff in H. tauto.
Qed.

Lemma ends_line : forall a c t, ends_item (a ++ c :: t) = ends_item (c :: t).
Proof.
  induction a as [|x a IH]; intros c t; [reflexivity|]. cbn [app]. rewrite ends_item_more; [apply IH|]. destruct a; discriminate.
Qed.

Lemma stepped_same : forall ls ms d, stepped d ls -> stepped d ms -> map unindent ls = map unindent ms -> ls = ms.
Proof.
  induction ls as [|l ls IH]; intros [|m ms] d H H' E; try discriminate; [reflexivity|]. cbn [stepped map] in *. injection E as E1 E2.
  destruct H as (e & t & El & (c & s & Et & N) & D & H). destruct H' as (e' & t' & Em & (c' & s' & Et' & N') & D' & H').
  assert (Ett : t = t').
  { subst. now rewrite !unindent_line in E1. }
  rewrite <- Ett in Em, D', H'. assert (Ee : e = e') by (destruct (starts_closing t); lia). rewrite <- Ee in Em, H'. rewrite El, Em. f_equal. exact (IH _ _ H H' E2).
Qed.

Lemma sound_lines : forall ls d, stepped d ls -> Forall (fun l => whole false l = true) ls -> Forall (fun l => ends_item l = true) (removelast ls) ->
  Forall (fun l => kept false l = true /\ starts_item l = true) (map unindent ls) -> filled (map unindent ls) -> sound (map unindent ls).
Proof.
  induction ls as [|l ls IH]; intros d H W E K F; [exact I|]. cbn [stepped map filled] in *.
  destruct H as (e & t & El & (c & s & Et & N) & D & H). inversion W as [|? ? W1 W2]; subst. inversion K as [|? ? [K1 I1] K2]; subst. destruct F as [F1 F2].
  cbn [sound]. rewrite unindent_line in * by exact N. repeat split; auto.
  - now apply whole_line in W1.
  - exists c, s. auto.
  - destruct ls as [|m ls]; [exact I|]. cbn [map before]. cbn [removelast] in E. inversion E as [|? ? E1 E2]; subst.
    split; [now rewrite ends_line in E1|exact F1].
  - apply (IH _ H); auto. destruct ls; [constructor|]. cbn [removelast] in E. now inversion E.
Qed.

Lemma lines_some : forall s, lines s <> [].
Proof. intros [|c r]; cbn [lines]; [discriminate|]. destruct (Ascii.eqb c LF); [discriminate|]. destruct (lines r); discriminate. Qed.

Lemma lines_same : forall s s', lines s = lines s' -> s = s'.
Proof.
  induction s as [|c r IH]; intros [|c' r'] E; cbn [lines] in E.
  - reflexivity.
  - pose proof (lines_some r'). destruct (Ascii.eqb c' LF), (lines r'); [contradiction|discriminate|contradiction|discriminate].
  - pose proof (lines_some r). destruct (Ascii.eqb c LF), (lines r); [contradiction|discriminate|contradiction|discriminate].
  - pose proof (lines_some r). pose proof (lines_some r').
    destruct (Ascii.eqb_spec c LF), (Ascii.eqb_spec c' LF).
    + subst. f_equal. apply IH. congruence.
    + destruct (lines r'); [contradiction|discriminate].
    + destruct (lines r); [contradiction|discriminate].
    + destruct (lines r) as [|l ls] eqn:E1; [contradiction|]. destruct (lines r') as [|l' ls'] eqn:E2; [contradiction|].
      injection E as -> -> ->. f_equal. apply IH. congruence.
Qed.

Theorem text_only : forall p p', stepped 0 (lines p) -> broken p -> sparing p -> stepped 0 (lines p') -> broken p' -> sparing p' ->
  unbroken p = unbroken p' -> p = p'.
Proof.
  intros p p' S [W E] [K F] S' [W' E'] [K' F'] U. apply lines_same, (stepped_same _ _ 0 S S').
  pose proof (sound_lines _ 0 S W E K F) as H. pose proof (sound_lines _ 0 S' W' E' K' F') as H'. unfold unbroken in U.
  destruct (lines p) as [|l ls] eqn:E1; [now apply lines_some in E1|]. destruct (lines p') as [|l' ls'] eqn:E2; [now apply lines_some in E2|].
  cbn [map sound] in *. destruct H as (W1 & K1 & I1 & V1 & B1 & H1). destruct H' as (W2 & K2 & I2 & V2 & B2 & H2).
  destruct (same_lines _ false true (unindent l) (unindent l') (map unindent ls) (map unindent ls') (le_n _)) as [-> ->]; auto.
  - destruct V1 as (? & ? & -> & _). discriminate.
  - destruct V2 as (? & ? & -> & _). discriminate.
Qed.
