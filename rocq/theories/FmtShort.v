(** [Display] gives the shortest decimal number that reads back: the search. *)
From Coq Require Import Lra Psatz.
From Verif Require Import RustFmt FmtSpec NumberProofs FloatProofs FmtProofs FmtBest.
Local Open Scope R_scope.

Lemma at_most_mono : forall n n' m, (n <= n')%N -> at_most_digits n m -> at_most_digits n' m.
Proof.
  intros n n' m L (q & i & E & H). exists q, i. split; auto. eapply N.lt_le_trans; [exact H|]. apply N.pow_le_mono_r; lia.
Qed.

Section Search.
Context (m : positive) (e : Z) (Hx : is_f64 (S754_finite false m e)).
Let x : f64 := S754_finite false m e.
Let X : R := value x.
Let num : Z := num_of m e.
Let den : Z := den_of e.
Let p : Z := point_of m e.

Definition low (k : Z) : Z := (num * 10 ^ Z.max (- (p - k)) 0 / (den * 10 ^ Z.max (p - k) 0))%Z.

Lemma X_range : powerRZ 10 (p - 1) <= X < powerRZ 10 p.
Proof. exact (point_spec m e Hx). Qed.

Lemma low_spec : forall k, IZR (low k) * powerRZ 10 (p - k) <= X < (IZR (low k) + 1) * powerRZ 10 (p - k).
Proof.
  intros k. pose proof (scaled num den (p - k) (den_pos e)) as [Hb E].
  pose proof (floor_spec (num * 10 ^ Z.max (- (p - k)) 0) _ Hb) as F. fold (low k) in F. rewrite E in F.
  change num with (num_of m e) in F. change den with (den_of e) in F. rewrite <- value_frac in F. fold x X in F.
  pose proof (pow10_pos (p - k)) as P. destruct F as [F1 F2]. split.
  - apply Rmult_le_compat_r with (r := powerRZ 10 (p - k)) in F1; [|lra].
    replace (X / powerRZ 10 (p - k) * powerRZ 10 (p - k)) with X in F1 by (field; lra). exact F1.
  - apply Rmult_lt_compat_r with (r := powerRZ 10 (p - k)) in F2; [|lra].
    replace (X / powerRZ 10 (p - k) * powerRZ 10 (p - k)) with X in F2 by (field; lra). exact F2.
Qed.

Lemma low_digits : forall k, (1 <= k)%Z -> (10 ^ (k - 1) <= low k < 10 ^ k)%Z.
Proof. intros k Hk. exact (D_range X p k (low k) X_range Hk (low_spec k)). Qed.

Lemma low_pos : forall k, (1 <= k)%Z -> (0 < low k)%Z.
Proof. intros k Hk. pose proof (low_digits k Hk). assert (0 < 10 ^ (k - 1))%Z by (apply Z.pow_pos_nonneg; lia). lia. Qed.

(** The two candidates have at most [k] digits. *)
Lemma low_few : forall k, (1 <= k)%Z -> at_most_digits (Z.to_N k) (Z.to_N (low k)).
Proof.
  intros k Hk. pose proof (low_digits k Hk). pose proof (low_pos k Hk). exists (Z.to_N (low k)), 0%N. split; [lia|].
  apply N2Z.inj_lt. rewrite N2Z.inj_pow, !Z2N.id by lia. change (Z.of_N 10) with 10%Z. lia.
Qed.

Lemma high_few : forall k, (1 <= k)%Z -> at_most_digits (Z.to_N k) (Z.to_N (low k + 1)).
Proof.
  intros k Hk. pose proof (low_digits k Hk). pose proof (low_pos k Hk).
  destruct (Z.eq_dec (low k + 1) (10 ^ k)) as [E|E].
  - exists 1%N, (Z.to_N k). split.
    + apply N2Z.inj. rewrite N2Z.inj_mul, N2Z.inj_pow, !Z2N.id by lia. change (Z.of_N 10) with 10%Z. lia.
    + apply N2Z.inj_lt. rewrite N2Z.inj_pow, !Z2N.id by lia. change (Z.of_N 10) with 10%Z. change (Z.of_N 1) with (10 ^ 0)%Z. apply Z.pow_lt_mono_r; lia.
  - exists (Z.to_N (low k + 1)), 0%N. split; [lia|].
    apply N2Z.inj_lt. rewrite N2Z.inj_pow, !Z2N.id by lia. change (Z.of_N 10) with 10%Z. lia.
Qed.

Definition down_value (k : Z) : R := decimal false (Z.to_N (low k)) (p - k).
Definition up_value (k : Z) : R := decimal false (Z.to_N (low k + 1)) (p - k).

Lemma down_is : forall k, (1 <= k)%Z -> down_value k = IZR (low k) * powerRZ 10 (p - k).
Proof. intros k Hk. apply decimal_Z. pose proof (low_pos k Hk). lia. Qed.

Lemma up_is : forall k, (1 <= k)%Z -> up_value k = (IZR (low k) + 1) * powerRZ 10 (p - k).
Proof. intros k Hk. unfold up_value. rewrite decimal_Z by (pose proof (low_pos k Hk); lia). now rewrite plus_IZR. Qed.

(** ** Every number with at most [k] digits that reads back is beyond one of them *)

Lemma beyond : forall k q i, (1 <= k)%Z -> at_most_digits (Z.to_N k) q -> nearest false (decimal false q i) x ->
  (nearest false (down_value k) x /\ 0 <= decimal false q i <= down_value k /\ down_value k <= X) \/
  (nearest false (up_value k) x /\ X < up_value k <= decimal false q i).
Proof.
  intros k q0 i0 Hk (q & t & -> & Hq) HN. rewrite decimal_shift in *. set (i := (i0 + Z.of_N t)%Z) in *.
  assert (Hq' : (0 <= Z.of_N q < 10 ^ k)%Z).
  { split; [lia|]. apply N2Z.inj_lt in Hq. rewrite N2Z.inj_pow, Z2N.id in Hq by lia. exact Hq. }
  assert (E : decimal false q i = IZR (Z.of_N q) * powerRZ 10 i) by reflexivity.
  assert (Hpos : 0 <= decimal false q i).
  { rewrite E. apply Rmult_le_pos; [apply IZR_le; lia|]. pose proof (pow10_pos i). lra. }
  pose proof (low_spec k) as L. pose proof (below_largest m e Hx) as B. fold x X in B.
  destruct (Rle_lt_dec (decimal false q i) X) as [H|H].
  - left. rewrite E in H. pose proof (down_best X p k (low k) X_range Hk L _ _ Hq' H) as K. rewrite <- E, <- (down_is k Hk) in K.
    rewrite <- (down_is k Hk) in L. rewrite <- E in H. split; [|lra].
    apply nearest_between with (decimal false q i); auto; [exact I|]. right. fold X. lra.
  - right. rewrite E in H. pose proof (up_best X p k (low k) X_range Hk L _ i Hq') as K. rewrite <- E, <- (up_is k Hk) in K.
    rewrite <- E in H. rewrite <- (up_is k Hk) in L. specialize (K H). split; [|lra].
    apply nearest_between with (decimal false q i); auto; [exact I|]. left. fold X. lra.
Qed.

(** ** Seventeen digits are enough *)

Lemma seventeen : nearest false (down_value 17) x \/ nearest false (up_value 17) x.
Proof.
  pose proof (low_spec 17) as L. rewrite <- (down_is 17), <- (up_is 17) in L by lia.
  pose proof (up_is 17 ltac:(lia)) as U. rewrite Rmult_plus_distr_r, Rmult_1_l, <- (down_is 17) in U by lia.
  pose proof X_range as [R _]. pose proof (pow10_pos (p - 17)) as P. set (u := powerRZ 10 (p - 17)) in *.
  assert (F : powerRZ 10 (p - 1) = IZR (10 ^ 16) * u).
  { unfold u. rewrite (IZR_pow 10) by lia. rewrite <- powerRZ_add by lra. f_equal. lia. }
  assert (T : powerRZ 2 (-54) * IZR (2 ^ 54) = 1). { rewrite (IZR_pow 2) by lia. rewrite <- powerRZ_add by lra. reflexivity. }
  assert (H : u / 2 < X * powerRZ 2 (-54)).
  { rewrite F in R. pose proof (pow2_pos (-54)) as P'. change (IZR (2 ^ 54)) with 18014398509481984 in T. change (IZR (10 ^ 16)) with 10000000000000000 in R.
    assert (T' : powerRZ 2 (-54) = / 18014398509481984) by (apply Rmult_eq_reg_r with 18014398509481984; lra). rewrite T'. lra. }
  destruct (Rle_lt_dec (X - down_value 17) (u / 2)) as [C|C]; [left|right]; apply near_nearest; auto; fold x X.
  - rewrite Rabs_left1 by lra. lra.
  - rewrite Rabs_pos_eq by lra. lra.
Qed.

(** ** The search *)

Definition ok_choice (k : Z) (c : R) : Prop :=
  nearest false c x /\
  ((c = down_value k /\ (nearest false (up_value k) x -> Rabs (down_value k - X) < Rabs (up_value k - X))) \/
   (c = up_value k /\ (nearest false (down_value k) x -> Rabs (up_value k - X) <= Rabs (down_value k - X)))).

Lemma ok_best : forall k d j, (1 <= k)%Z -> ok_choice k (decimal false d j) -> at_most_digits (Z.to_N k) d ->
  (forall q i n, (n < Z.to_N k)%N -> at_most_digits n q -> ~ nearest false (decimal false q i) x) ->
  best_decimal false d j x.
Proof.
  intros k d j Hk (C1 & C2) Hd Hmin. split; [exact C1|]. split.
  - intros m' e' n HN Hn. destruct (N.lt_ge_cases n (Z.to_N k)) as [L|L]; [exfalso; eapply Hmin; eauto|].
    eapply at_most_mono; eauto.
  - intros m' e' HN Hn. specialize (Hn _ Hd). fold X. set (v := decimal false m' e') in *. set (c := decimal false d j) in *.
    pose proof (low_spec k) as L. rewrite <- (down_is k Hk), <- (up_is k Hk) in L.
    assert (Hdown : 0 <= down_value k).
    { rewrite (down_is k Hk). apply Rmult_le_pos; [apply IZR_le; pose proof (low_pos k Hk); lia|]. pose proof (pow10_pos (p - k)). lra. }
    rewrite (Rabs_left1 (down_value k - X)), (Rabs_pos_eq (up_value k - X)) in C2 by lra.
    destruct (beyond k m' e' Hk Hn HN) as [[A B]|[A B]]; fold v in B;
      destruct C2 as [[-> C2]|[-> C2]]; [clear C2|specialize (C2 A)|specialize (C2 A)|clear C2];
      rewrite ?(Rabs_left1 (down_value k - X)), ?(Rabs_pos_eq (up_value k - X)) by lra;
      first [rewrite (Rabs_left1 (v - X)) by lra|rewrite (Rabs_pos_eq (v - X)) by lra];
      rewrite ?(Rabs_pos_eq (down_value k)), ?(Rabs_pos_eq (up_value k)), (Rabs_pos_eq v) by lra; split; lra.
Qed.

Lemma half : forall k, (1 <= k)%Z ->
  let a := (num * 10 ^ Z.max (- (p - k)) 0)%Z in let b := (den * 10 ^ Z.max (p - k) 0)%Z in
  if (2 * (a - low k * b) <? b)%Z then Rabs (down_value k - X) < Rabs (up_value k - X) else Rabs (up_value k - X) <= Rabs (down_value k - X).
Proof.
  intros k Hk a b. pose proof (scaled num den (p - k) (den_pos e)) as [Hb E]. fold a b in Hb, E.
  change num with (num_of m e) in E. change den with (den_of e) in E. rewrite <- value_frac in E. fold x X in E.
  pose proof (low_spec k) as L. pose proof (pow10_pos (p - k)) as P. rewrite down_is, up_is by auto. set (u := powerRZ 10 (p - k)) in *.
  apply IZR_lt in Hb. assert (Ea : IZR a = X / u * IZR b). { rewrite <- E. field. lra. }
  assert (E2 : IZR (2 * (a - low k * b)) = 2 * ((X - IZR (low k) * u) / u) * IZR b).
  { rewrite mult_IZR, minus_IZR, mult_IZR, Ea. field. lra. }
  rewrite Rabs_left1 by lra. rewrite Rabs_pos_eq by lra.
  destruct (Z.ltb_spec (2 * (a - low k * b)) b) as [H|H].
  - apply IZR_lt in H. rewrite E2 in H. assert (K : 2 * ((X - IZR (low k) * u) / u) < 1) by (apply Rmult_lt_reg_r with (IZR b); lra).
    apply Rmult_lt_compat_r with (r := u) in K; auto. replace (2 * ((X - IZR (low k) * u) / u) * u) with (2 * (X - IZR (low k) * u)) in K by (field; lra). lra.
  - apply IZR_le in H. rewrite E2 in H. assert (K : 1 <= 2 * ((X - IZR (low k) * u) / u)) by (apply Rmult_le_reg_r with (IZR b); lra).
    apply Rmult_le_compat_r with (r := u) in K; [|lra]. replace (2 * ((X - IZR (low k) * u) / u) * u) with (2 * (X - IZR (low k) * u)) in K by (field; lra). lra.
Qed.

Lemma shortest_best : forall fuel k, (1 <= k)%Z -> (Z.of_nat fuel + k = 18)%Z ->
  (forall q i n, (n < Z.to_N k)%N -> at_most_digits n q -> ~ nearest false (decimal false q i) x) ->
  exists d j, shortest fuel k x num den p = Some (d, j) /\ best_decimal false d j x /\ (d mod 10 <> 0)%N.
Proof.
  induction fuel as [|fuel IH]; intros k Hk Hf Hmin.
  { exfalso. assert (k = 18%Z) as -> by lia.
    destruct seventeen as [H|H]; eapply Hmin; try exact H; try (instantiate (1 := Z.to_N 17); reflexivity); [apply low_few|apply high_few]; lia. }
  cbn [shortest]. fold (low k).
  pose proof (low_pos k Hk) as Hl. pose proof (low_digits k Hk) as Hd.
  assert (Hs : (10 ^ k < 10 ^ 20)%Z) by (apply Z.pow_lt_mono_r; lia).
  assert (S1 : (Z.to_N (low k) < 10 ^ 20)%N) by (change (10 ^ 20)%N with (Z.to_N (10 ^ 20)); lia).
  assert (S2 : (Z.to_N (low k + 1) < 10 ^ 20)%N) by (change (10 ^ 20)%N with (Z.to_N (10 ^ 20)); lia).
  pose proof (candidate_spec x (Z.to_N (low k)) (p - k)) as C1.
  pose proof (candidate_spec x (Z.to_N (low k + 1)) (p - k)) as C2.
  pose proof (half k Hk) as Hh. cbv zeta in Hh.
  fold (down_value k) in C1. fold (up_value k) in C2.
  destruct (reads_back x (strip_zeros 20 (Z.to_N (low k)) (p - k))) as [[d1 j1]|];
  destruct (reads_back x (strip_zeros 20 (Z.to_N (low k + 1)) (p - k))) as [[d2 j2]|].
  - destruct C1 as (A1 & E1 & M1 & N1). destruct C2 as (A2 & E2 & M2 & N2).
    destruct (_ <? _)%Z.
    + exists d1, j1. split; [reflexivity|]. split; [|apply N1; lia]. apply (ok_best k); auto; [|apply M1; now apply low_few].
      rewrite E1. split; [exact A1|]. left. split; [reflexivity|]. intros _. exact Hh.
    + exists d2, j2. split; [reflexivity|]. split; [|apply N2; lia]. apply (ok_best k); auto; [|apply M2; now apply high_few].
      rewrite E2. split; [exact A2|]. right. split; [reflexivity|]. intros _. exact Hh.
  - destruct C1 as (A1 & E1 & M1 & N1).
    exists d1, j1. split; [reflexivity|]. split; [|apply N1; lia]. apply (ok_best k); auto; [|apply M1; now apply low_few].
    rewrite E1. split; [exact A1|]. left. split; [reflexivity|]. intros K; contradiction.
  - destruct C2 as (A2 & E2 & M2 & N2).
    exists d2, j2. split; [reflexivity|]. split; [|apply N2; lia]. apply (ok_best k); auto; [|apply M2; now apply high_few].
    rewrite E2. split; [exact A2|]. right. split; [reflexivity|]. intros K; contradiction.
  - apply IH; [lia|lia|]. intros q i n Hn Hq HN.
    assert (Hq' : at_most_digits (Z.to_N k) q) by (eapply at_most_mono; [|exact Hq]; lia).
    destruct (beyond k q i Hk Hq' HN) as [[A _]|[A _]]; contradiction.
Qed.

Lemma decimal_of_best : exists d j, decimal_of m e = (d, j) /\ best_decimal false d j x /\ (d mod 10 <> 0)%N.
Proof.
  destruct (shortest_best 17 1) as (d & j & E & H1 & H2); [lia|lia| |].
  - intros q i n Hn (q' & t & -> & Hq) HN. assert (n = 0%N) as -> by lia. assert (q' = 0%N) as -> by (cbn in Hq; lia).
    rewrite decimal_shift, value_zero_m in HN. destruct HN as (_ & _ & HN & _).
    assert (HB : Rabs 0 < overflow_bound) by (rewrite Rabs_R0; apply bound_pos).
    destruct (HN HB) as (_ & K & _). specialize (K (S754_zero false) eq_refl I). cbn [value] in K.
    rewrite !Rminus_0_r, Rabs_R0 in K. pose proof (value_pos m e) as V. fold x in V. rewrite Rabs_pos_eq in K by lra. lra.
  - exists d, j. split; auto. unfold decimal_of. fold x.
    change (Z.pos m * 2 ^ Z.max e 0)%Z with num. change (2 ^ Z.max (- e) 0)%Z with den.
    change (magnitude 10 num den ((Z.pos (digits2_pos m) + e - 1) * 30103 / 100000 - 1)) with p. now rewrite E.
Qed.
End Search.
