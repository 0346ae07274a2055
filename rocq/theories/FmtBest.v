(** [Display] gives the shortest decimal number that reads back. *)
From Coq Require Import Lra Psatz.
From Verif Require Import RustFmt FmtSpec NumberProofs FloatProofs FmtProofs.
Local Open Scope R_scope.

(** * Numbers between *)

Lemma nearest_between : forall r c x, nearest false r x -> finite x -> Rabs (value x) < overflow_bound ->
  (value x <= c <= r \/ r <= c <= value x) -> nearest false c x.
Proof.
  intros r c x (H1 & H2 & H3 & H4) Hf Hx Hc.
  assert (Hr : Rabs r < overflow_bound).
  { destruct (Rlt_le_dec (Rabs r) overflow_bound) as [H|H]; auto. rewrite (H4 H) in Hf. destruct Hf. }
  assert (Hb : Rabs c < overflow_bound).
  { unfold Rabs in *. destruct (Rcase_abs c), (Rcase_abs r), (Rcase_abs (value x)); lra. }
  destruct (H3 Hr) as (_ & Hn & He).
  split; [exact H1|]. split; [exact H2|]. split; [|intros; lra].
  intros _. split; [exact Hf|].
  assert (E : Rabs (value x - r) = Rabs (value x - c) + Rabs (c - r)).
  { unfold Rabs. destruct (Rcase_abs (value x - r)), (Rcase_abs (value x - c)), (Rcase_abs (c - r)); lra. }
  assert (T : forall y, Rabs (value y - r) <= Rabs (value y - c) + Rabs (c - r)).
  { intros y. replace (value y - r) with ((value y - c) + (c - r)) by ring. apply Rabs_triang. }
  split.
  - intros y Hy Fy. specialize (Hn y Hy Fy). specialize (T y). lra.
  - intros y Hy Fy Ey Ne. apply (He y Hy Fy); auto. specialize (Hn y Hy Fy). specialize (T y). lra.
Qed.

(** * The spacing of the numbers *)

Lemma f64_fields : forall s m e, is_f64 (S754_finite s m e) ->
  (Z.pos m < 2 ^ 53 /\ -1074 <= e <= 971 /\ (e = -1074 \/ 2 ^ 52 <= Z.pos m))%Z.
Proof.
  intros s m e H. unfold is_f64 in H. cbn [valid_binary] in H. unfold bounded in H. apply andb_prop in H. destruct H as [H H'].
  apply Zle_bool_imp_le in H'. unfold canonical_mantissa in H. apply Zeq_bool_eq in H. unfold fexp, emin in H.
  rewrite Digits.Zpos_digits2_pos in H. pose proof (Digits.Zdigits_correct Zaux.radix2 (Z.pos m)) as [D1 D2].
  rewrite Z.abs_eq in D1, D2 by lia. set (n := Digits.Zdigits Zaux.radix2 (Z.pos m)) in *.
  change (Zaux.radix_val Zaux.radix2) with 2%Z in *.
  assert (Hn : (n <= 53)%Z) by lia. split; [|split; [lia|]].
  - eapply Z.lt_le_trans; [exact D2|]. apply Z.pow_le_mono_r; lia.
  - destruct (Z.eq_dec e (-1074)) as [->|Ne]; [now left|]. right. assert (n = 53%Z) by lia.
    eapply Z.le_trans; [|exact D1]. apply Z.pow_le_mono_r; lia.
Qed.

Lemma pow2_pos : forall e, 0 < powerRZ 2 e.
Proof. intros e. apply powerRZ_lt. lra. Qed.

Lemma pow10_pos : forall e, 0 < powerRZ 10 e.
Proof. intros e. apply powerRZ_lt. lra. Qed.

Lemma value_pos : forall m e, 0 < value (S754_finite false m e).
Proof. intros m e. cbn [value signed]. apply Rmult_lt_0_compat; [apply IZR_lt; lia|apply pow2_pos]. Qed.

Lemma pow2_split : forall a b, powerRZ 2 a = powerRZ 2 (a - b) * powerRZ 2 b.
Proof. intros a b. rewrite <- powerRZ_add by lra. f_equal. lia. Qed.

Lemma two_53 : powerRZ 2 (-53) * IZR (2 ^ 53) = 1.
Proof. rewrite (IZR_pow 2) by lia. rewrite <- powerRZ_add by lra. reflexivity. Qed.

Lemma spacing : forall m e y, is_f64 (S754_finite false m e) -> is_f64 y -> finite y -> value y <> value (S754_finite false m e) ->
  value (S754_finite false m e) * powerRZ 2 (-53) <= Rabs (value y - value (S754_finite false m e)).
Proof.
  intros m e y Hx Hy Fy Ne. pose proof (value_pos m e) as Hp. set (X := value (S754_finite false m e)) in *.
  assert (Hs : 0 < powerRZ 2 (-53) <= 1). { pose proof two_53 as T. pose proof (pow2_pos (-53)) as P. split; auto. assert (1 <= IZR (2 ^ 53)) by (apply IZR_le; lia). nra. }
  assert (Hneg : value y <= 0 -> X * powerRZ 2 (-53) <= Rabs (value y - X)).
  { intros H. rewrite Rabs_left by lra. nra. }
  destruct y as [s|s| |s m' e']; cbn in Fy; try tauto; [apply Hneg; cbn; lra|].
  destruct s.
  { apply Hneg. pose proof (value_pos m' e') as K. cbn [value signed] in *. lra. }
  clear Hneg. destruct (f64_fields _ _ _ Hx) as (Hm & He & Hn). destruct (f64_fields _ _ _ Hy) as (Hm' & He' & Hn').
  subst X. cbn [value signed] in *. pose proof two_53 as T.
  destruct (Z_le_gt_dec e e') as [Hle|Hgt].
  - rewrite (pow2_split e' e) in *. rewrite <- (IZR_pow 2 (e' - e)) in * by lia. rewrite <- Rmult_assoc, <- mult_IZR in *.
    set (z := (Z.pos m' * 2 ^ (e' - e))%Z) in *. rewrite <- Rmult_minus_distr_r, Rabs_mult, (Rabs_pos_eq (powerRZ 2 e)) by (pose proof (pow2_pos e); lra).
    rewrite <- minus_IZR, <- abs_IZR. assert (Hz : (1 <= Z.abs (z - Z.pos m))%Z).
    { assert (z <> Z.pos m) by (intros E; apply Ne; now rewrite E). lia. }
    apply IZR_le in Hz. apply IZR_lt in Hm. pose proof (pow2_pos e) as P. pose proof (pow2_pos (-53)) as P'.
    assert (IZR (Z.pos m) * powerRZ 2 (-53) <= 1) by nra. nra.
  - assert (Hm2 : (2 ^ 52 <= Z.pos m)%Z) by (destruct Hn; [lia|auto]).
    rewrite (pow2_split e e') in *. rewrite <- (IZR_pow 2 (e - e')) in * by lia. rewrite <- Rmult_assoc, <- mult_IZR in *.
    assert (HP : (2 <= 2 ^ (e - e'))%Z). { change 2%Z with (2 ^ 1)%Z at 1. apply Z.pow_le_mono_r; lia. }
    set (z := (Z.pos m * 2 ^ (e - e'))%Z) in *. assert (Hz : (2 ^ 53 <= z)%Z). { unfold z. change (2 ^ 53)%Z with (2 ^ 52 * 2)%Z. apply Z.mul_le_mono_nonneg; lia. }
    rewrite <- Rmult_minus_distr_r, Rabs_mult, (Rabs_pos_eq (powerRZ 2 e')) by (pose proof (pow2_pos e'); lra).
    rewrite <- minus_IZR, <- abs_IZR. replace (Z.abs (Z.pos m' - z)) with (z - Z.pos m')%Z by lia.
    assert (Hk : (z <= 2 ^ 53 * (z - Z.pos m'))%Z) by nia.
    apply IZR_le in Hk. rewrite mult_IZR in Hk. pose proof (pow2_pos e') as P. pose proof (pow2_pos (-53)) as P'.
    assert (IZR z * powerRZ 2 (-53) <= IZR (z - Z.pos m')).
    { apply Rmult_le_compat_r with (r := powerRZ 2 (-53)) in Hk; [|lra].
      replace (IZR (2 ^ 53) * IZR (z - Z.pos m') * powerRZ 2 (-53)) with (IZR (z - Z.pos m') * (powerRZ 2 (-53) * IZR (2 ^ 53))) in Hk by ring.
      rewrite T in Hk. lra. }
    nra.
Qed.

Lemma value_top : forall m e, is_f64 (S754_finite false m e) -> value (S754_finite false m e) <= powerRZ 2 1024 - powerRZ 2 971.
Proof.
  intros m e H. destruct (f64_fields _ _ _ H) as (Hm & He & _). cbn [value signed].
  rewrite (pow2_split 1024 971). change (1024 - 971)%Z with 53%Z. rewrite <- (IZR_pow 2 53) by lia.
  assert (Hp : powerRZ 2 e <= powerRZ 2 971).
  { rewrite (pow2_split 971 e). pose proof (pow2_pos e). assert (1 <= powerRZ 2 (971 - e)).
    { rewrite <- (IZR_pow 2) by lia. apply IZR_le. assert (0 < 2 ^ (971 - e))%Z by (apply Z.pow_pos_nonneg; lia). lia. }
    nra. }
  assert (Hz : (Z.pos m <= 2 ^ 53 - 1)%Z) by lia. apply IZR_le in Hz. rewrite minus_IZR in Hz.
  pose proof (pow2_pos e). assert (0 < IZR (Z.pos m)) by (apply IZR_lt; lia).
  set (P := powerRZ 2 971) in *. set (E := powerRZ 2 e) in *. set (B := IZR (2 ^ 53)) in *. nra.
Qed.

Lemma near_nearest : forall m e c, is_f64 (S754_finite false m e) ->
  Rabs (c - value (S754_finite false m e)) < value (S754_finite false m e) * powerRZ 2 (-54) ->
  nearest false c (S754_finite false m e).
Proof.
  intros m e c Hx Hc. pose proof (value_pos m e) as Hp. pose proof (value_top m e Hx) as Ht.
  assert (Hsp := fun y => spacing m e y Hx).
  set (x := S754_finite false m e) in *. set (X := value x) in *.
  assert (E54 : powerRZ 2 (-53) = 2 * powerRZ 2 (-54)).
  { rewrite (pow2_split (-53) (-54)). change (-53 - -54)%Z with 1%Z. rewrite powerRZ_1. reflexivity. }
  assert (Hb : Rabs c < overflow_bound).
  { assert (E970 : powerRZ 2 971 = 2 * powerRZ 2 970).
    { rewrite (pow2_split 971 970). change (971 - 970)%Z with 1%Z. rewrite powerRZ_1. reflexivity. }
    assert (E : powerRZ 2 1024 * powerRZ 2 (-54) = powerRZ 2 970). { rewrite <- powerRZ_add by lra. reflexivity. }
    pose proof (pow2_pos (-54)) as P. pose proof (pow2_pos 971) as P'.
    assert (X * powerRZ 2 (-54) <= powerRZ 2 970).
    { rewrite <- E. apply Rmult_le_compat_r; lra. }
    unfold overflow_bound. set (B := powerRZ 2 1024) in *. set (C := powerRZ 2 970) in *. set (F := powerRZ 2 971) in *.
    revert Hc. unfold Rabs. destruct (Rcase_abs c), (Rcase_abs (c - X)); intros; lra. }
  split; [exact Hx|]. split; [reflexivity|]. split; [|intros; lra]. intros _. split; [exact I|].
  assert (K : forall y, is_f64 y -> finite y -> value y <> X -> Rabs (X - c) < Rabs (value y - c)).
  { intros y Hy Fy Ne. specialize (Hsp y Hy Fy Ne).
    assert (Rabs (value y - X) <= Rabs (value y - c) + Rabs (c - X)).
    { replace (value y - X) with ((value y - c) + (c - X)) by ring. apply Rabs_triang. }
    rewrite (Rabs_minus_sym X c). rewrite E54 in Hsp. fold X in Hsp. lra. }
  split.
  - intros y Hy Fy. destruct (Req_dec (value y) X) as [->|Ne]; [fold X; apply Rle_refl|]. apply Rlt_le. now apply K.
  - intros y Hy Fy Ey Ne. specialize (K y Hy Fy Ne). fold X in Ey. lra.
Qed.

(** * The number of digits in front of the point *)

Definition good_guess (t : Z) : bool :=
  let p := (t * 30103 / 100000 - 1)%Z in
  (10 ^ Z.max (p - 1) 0 * 2 ^ Z.max (- t) 0 <=? 2 ^ Z.max t 0 * 10 ^ Z.max (- (p - 1)) 0)%Z &&
  (2 ^ Z.max (t + 1) 0 * 10 ^ Z.max (- (p + 9)) 0 <=? 10 ^ Z.max (p + 9) 0 * 2 ^ Z.max (- (t + 1)) 0)%Z.

Lemma guesses : forallb (fun i => good_guess (Z.of_nat i - 1100)) (seq 0 2200) = true.
Proof. vm_compute. reflexivity. Qed.

Lemma pow_max : forall b z, (0 < b)%Z -> powerRZ (IZR b) z = IZR (b ^ Z.max z 0) / IZR (b ^ Z.max (- z) 0).
Proof.
  intros b z Hb. assert (IZR b <> 0) by (apply not_0_IZR; lia). rewrite !IZR_pow by lia.
  unfold Rdiv. rewrite <- powerRZ_neg'. rewrite <- powerRZ_add by auto. f_equal. lia.
Qed.

Lemma frac_le : forall a b c d, (0 < b)%Z -> (0 < d)%Z -> (a * d <= c * b)%Z -> IZR a / IZR b <= IZR c / IZR d.
Proof.
  intros a b c d Hb Hd H. apply IZR_lt in Hb, Hd. apply IZR_le in H. rewrite !mult_IZR in H.
  apply Rmult_le_reg_r with (IZR b * IZR d); [nra|]. unfold Rdiv.
  replace (IZR a * / IZR b * (IZR b * IZR d)) with (IZR a * IZR d) by (field; lra).
  replace (IZR c * / IZR d * (IZR b * IZR d)) with (IZR c * IZR b) by (field; lra). exact H.
Qed.

Lemma frac_lt : forall a b c d, (0 < b)%Z -> (0 < d)%Z -> (a * d < c * b)%Z -> IZR a / IZR b < IZR c / IZR d.
Proof.
  intros a b c d Hb Hd H. apply IZR_lt in Hb, Hd, H. rewrite !mult_IZR in H.
  apply Rmult_lt_reg_r with (IZR b * IZR d); [nra|]. unfold Rdiv.
  replace (IZR a * / IZR b * (IZR b * IZR d)) with (IZR a * IZR d) by (field; lra).
  replace (IZR c * / IZR d * (IZR b * IZR d)) with (IZR c * IZR b) by (field; lra). exact H.
Qed.

Lemma pow_pos : forall b z, (0 < b)%Z -> (0 < b ^ Z.max z 0)%Z.
Proof. intros. apply Z.pow_pos_nonneg; lia. Qed.

Lemma guess : forall t, (-1100 <= t < 1100)%Z ->
  let p := (t * 30103 / 100000 - 1)%Z in powerRZ 10 (p - 1) <= powerRZ 2 t /\ powerRZ 2 (t + 1) <= powerRZ 10 (p + 9).
Proof.
  intros t Ht p. pose proof guesses as H. rewrite forallb_forall in H. specialize (H (Z.to_nat (t + 1100))).
  replace (Z.of_nat (Z.to_nat (t + 1100)) - 1100)%Z with t in H by lia.
  assert (Hi : In (Z.to_nat (t + 1100)) (seq 0 2200)). { apply in_seq. lia. }
  apply H in Hi. clear H. unfold good_guess in Hi. fold p in Hi. apply andb_prop in Hi. destruct Hi as [H1 H2].
  apply Z.leb_le in H1, H2. rewrite !(pow_max 2), !(pow_max 10) by lia.
  split; apply frac_le; try (apply pow_pos; lia); auto.
Qed.

Lemma magnitude_spec : forall fuel num den p0, (0 < den)%Z ->
  powerRZ 10 (p0 - 1) <= IZR num / IZR den -> IZR num / IZR den < powerRZ 10 (p0 + Z.of_nat fuel) ->
  powerRZ 10 (magnitude fuel num den p0 - 1) <= IZR num / IZR den < powerRZ 10 (magnitude fuel num den p0).
Proof.
  intros fuel num den. induction fuel as [|fuel IH]; intros p0 Hd H1 H2; cbn [magnitude].
  - split; auto. now replace (p0 + Z.of_nat 0)%Z with p0 in H2 by lia.
  - assert (K := pow_pos 10 p0 eq_refl). assert (K' := pow_pos 10 (- p0) eq_refl).
    destruct (Z.ltb_spec (num * 10 ^ Z.max (- p0) 0) (den * 10 ^ Z.max p0 0)) as [H|H].
    + split; auto. rewrite (pow_max 10) by lia. apply frac_lt; auto. lia.
    + apply IH; auto.
      * replace (p0 + 1 - 1)%Z with p0 by lia. rewrite (pow_max 10) by lia. apply frac_le; auto. lia.
      * now replace (p0 + 1 + Z.of_nat fuel)%Z with (p0 + Z.of_nat (S fuel))%Z by lia.
Qed.

Definition num_of (m : positive) (e : Z) : Z := (Z.pos m * 2 ^ Z.max e 0)%Z.
Definition den_of (e : Z) : Z := (2 ^ Z.max (- e) 0)%Z.
Definition point_of (m : positive) (e : Z) : Z :=
  magnitude 10 (num_of m e) (den_of e) ((Z.pos (digits2_pos m) + e - 1) * 30103 / 100000 - 1).

Lemma den_pos : forall e, (0 < den_of e)%Z.
Proof. intros. apply pow_pos. lia. Qed.

Lemma value_frac : forall m e, value (S754_finite false m e) = IZR (num_of m e) / IZR (den_of e).
Proof.
  intros m e. cbn [value signed]. unfold num_of, den_of. rewrite mult_IZR. rewrite (pow_max 2) by lia. unfold Rdiv. ring.
Qed.

Lemma point_spec : forall m e, is_f64 (S754_finite false m e) ->
  powerRZ 10 (point_of m e - 1) <= value (S754_finite false m e) < powerRZ 10 (point_of m e).
Proof.
  intros m e H. destruct (f64_fields _ _ _ H) as (Hm & He & _).
  pose proof (Digits.Zdigits_correct Zaux.radix2 (Z.pos m)) as [D1 D2].
  rewrite <- Digits.Zpos_digits2_pos in D1, D2. rewrite Z.abs_eq in D1, D2 by lia.
  change (Zaux.radix_val Zaux.radix2) with 2%Z in *.
  set (n := Z.pos (digits2_pos m)) in *.
  assert (Hn : (1 <= n <= 53)%Z).
  { split; [unfold n; lia|]. destruct (Z_le_gt_dec n 53); auto. assert (2 ^ 53 <= 2 ^ (n - 1))%Z by (apply Z.pow_le_mono_r; lia). lia. }
  destruct (guess (n + e - 1)) as [G1 G2]; [lia|].
  assert (V : powerRZ 2 (n + e - 1) <= value (S754_finite false m e) < powerRZ 2 (n + e)).
  { cbn [value signed]. rewrite (pow2_split (n + e - 1) e), (pow2_split (n + e) e).
    replace (n + e - 1 - e)%Z with (n - 1)%Z by lia. replace (n + e - e)%Z with n by lia.
    rewrite <- (IZR_pow 2 (n - 1)), <- (IZR_pow 2 n) by lia. pose proof (pow2_pos e). apply IZR_le in D1. apply IZR_lt in D2. split; nra. }
  rewrite value_frac in *. unfold point_of. fold n. apply magnitude_spec; [apply den_pos|lra|].
  eapply Rlt_le_trans; [apply V|]. replace (n + e - 1 + 1)%Z with (n + e)%Z in G2 by lia. eapply Rle_trans; [exact G2|].
  apply powerRZ_10_le. lia.
Qed.

(** * The candidates *)

Lemma decimal_Z : forall d j, (0 <= d)%Z -> decimal false (Z.to_N d) j = IZR d * powerRZ 10 j.
Proof. intros d j H. unfold decimal. cbn [signed]. now rewrite Z2N.id. Qed.

Lemma pow10_split : forall a b, powerRZ 10 a = powerRZ 10 (a - b) * powerRZ 10 b.
Proof. intros a b. rewrite <- powerRZ_add by lra. f_equal. lia. Qed.

Lemma scaled : forall num den j, (0 < den)%Z ->
  (0 < den * 10 ^ Z.max j 0)%Z /\
  IZR (num * 10 ^ Z.max (- j) 0) / IZR (den * 10 ^ Z.max j 0) = IZR num / IZR den / powerRZ 10 j.
Proof.
  intros num den j Hd. pose proof (pow_pos 10 j eq_refl) as K. pose proof (pow_pos 10 (- j) eq_refl) as K'.
  split; [nia|]. rewrite (pow_max 10) by lia. rewrite !mult_IZR. apply IZR_lt in Hd, K, K'. field. repeat split; lra.
Qed.

Lemma floor_spec : forall a b, (0 < b)%Z -> IZR (a / b) <= IZR a / IZR b < IZR (a / b) + 1.
Proof.
  intros a b Hb. pose proof (Z.div_mod a b ltac:(lia)) as E. pose proof (Z.mod_pos_bound a b Hb) as M.
  set (q := (a / b)%Z) in *. set (r := (a mod b)%Z) in *. apply (f_equal IZR) in E. rewrite plus_IZR, mult_IZR in E.
  destruct M as [M1 M2]. apply IZR_le in M1. apply IZR_lt in M2, Hb.
  assert (F : IZR a / IZR b = IZR q + IZR r / IZR b). { rewrite E. field. lra. }
  assert (0 <= IZR r / IZR b < 1).
  { split; [apply Rmult_le_pos; [lra|apply Rlt_le, Rinv_0_lt_compat; lra]|]. apply Rmult_lt_reg_r with (IZR b); auto. unfold Rdiv. rewrite Rmult_assoc, Rinv_l; lra. }
  lra.
Qed.

Section Candidates.
Context (X : R) (p k D : Z) (Hp : powerRZ 10 (p - 1) <= X < powerRZ 10 p) (Hk : (1 <= k)%Z).
Let u : R := powerRZ 10 (p - k).
Context (HD : IZR D * u <= X < (IZR D + 1) * u).

Lemma u_pos : 0 < u.
Proof. apply pow10_pos. Qed.

Lemma first_digit : powerRZ 10 (p - 1) = IZR (10 ^ (k - 1)) * u.
Proof. unfold u. rewrite (IZR_pow 10) by lia. rewrite <- powerRZ_add by lra. f_equal. lia. Qed.

Lemma last_digit : powerRZ 10 p = IZR (10 ^ k) * u.
Proof. unfold u. rewrite (IZR_pow 10) by lia. rewrite <- powerRZ_add by lra. f_equal. lia. Qed.

Lemma D_range : (10 ^ (k - 1) <= D < 10 ^ k)%Z.
Proof.
  pose proof u_pos as Hu. pose proof first_digit as F. pose proof last_digit as L. rewrite F, L in Hp. clear F L.
  split.
  - assert (H : IZR (10 ^ (k - 1)) < IZR (D + 1)). { rewrite plus_IZR. apply Rmult_lt_reg_r with u; auto. lra. }
    apply lt_IZR in H. lia.
  - apply lt_IZR. apply Rmult_lt_reg_r with u; auto. lra.
Qed.

(** A number with at most [k] digits is a multiple of [u] or below [X]. *)
Lemma few_digits : forall q i, (0 <= q < 10 ^ k)%Z ->
  (exists z, IZR q * powerRZ 10 i = IZR z * u) \/ IZR q * powerRZ 10 i < powerRZ 10 (p - 1).
Proof.
  intros q i Hq. destruct (Z_le_gt_dec (p - k) i) as [H|H].
  - left. exists (q * 10 ^ (i - (p - k)))%Z. rewrite mult_IZR, (IZR_pow 10) by lia. unfold u. rewrite Rmult_assoc. f_equal.
    apply pow10_split.
  - right. apply Rlt_le_trans with (powerRZ 10 (k + i)).
    + rewrite powerRZ_add by lra. apply Rmult_lt_compat_r; [apply pow10_pos|]. rewrite <- (IZR_pow 10) by lia. apply IZR_lt. lia.
    + apply powerRZ_10_le. lia.
Qed.

Lemma down_best : forall q i, (0 <= q < 10 ^ k)%Z -> IZR q * powerRZ 10 i <= X -> IZR q * powerRZ 10 i <= IZR D * u.
Proof.
  intros q i Hq H. pose proof u_pos as Hu. destruct (few_digits q i Hq) as [(z & E)|K].
  - rewrite E in *. apply Rmult_le_compat_r; [lra|]. apply IZR_le.
    assert (L : IZR z < IZR (D + 1)). { rewrite plus_IZR. apply Rmult_lt_reg_r with u; auto. lra. }
    apply lt_IZR in L. lia.
  - apply Rlt_le. eapply Rlt_le_trans; [exact K|]. rewrite first_digit. apply Rmult_le_compat_r; [lra|]. apply IZR_le, D_range.
Qed.

Lemma up_best : forall q i, (0 <= q < 10 ^ k)%Z -> X < IZR q * powerRZ 10 i -> (IZR D + 1) * u <= IZR q * powerRZ 10 i.
Proof.
  intros q i Hq H. pose proof u_pos as Hu. destruct (few_digits q i Hq) as [(z & E)|K].
  - rewrite E in *. apply Rmult_le_compat_r; [lra|]. rewrite <- plus_IZR. apply IZR_le.
    assert (L : IZR D < IZR z). { apply Rmult_lt_reg_r with u; auto. lra. }
    apply lt_IZR in L. lia.
  - lra.
Qed.
End Candidates.

(** ** Zeros at the end *)

Lemma strip_spec : forall fuel d j, exists i, let '(d', j') := strip_zeros fuel d j in
  d = (d' * 10 ^ i)%N /\ j' = (j + Z.of_N i)%Z /\ (d <> 0 -> (d < 10 ^ N.of_nat fuel)%N -> d' mod 10 <> 0)%N.
Proof.
  induction fuel as [|fuel IH]; intros d j; cbn [strip_zeros].
  - exists 0%N. rewrite N.mul_1_r. repeat split; [lia|]. cbn. lia.
  - destruct (N.eqb_spec d 0) as [->|H0]; [exists 0%N; repeat split; lia|].
    destruct (N.eqb_spec (d mod 10) 0) as [H|H].
    + destruct (IH (d / 10)%N (j + 1)%Z) as (i & K). destruct (strip_zeros fuel (d / 10) (j + 1)) as [d' j'].
      destruct K as (K1 & K2 & K3). exists (N.succ i). rewrite N.pow_succ_r'.
      pose proof (N.div_mod d 10 ltac:(lia)) as E. rewrite H, N.add_0_r in E. split; [|split].
      * rewrite E at 1. rewrite K1. lia.
      * lia.
      * intros _ Hd. apply K3; [intros Z0; lia|]. rewrite Nat2N.inj_succ, N.pow_succ_r' in Hd. lia.
    + exists 0%N. rewrite N.mul_1_r. repeat split; [lia|]. auto.
Qed.

Lemma decimal_shift : forall neg d i j, decimal neg (d * 10 ^ i) j = decimal neg d (j + Z.of_N i).
Proof.
  intros neg d i j. unfold decimal. f_equal. rewrite N2Z.inj_mul, N2Z.inj_pow, mult_IZR, (IZR_pow 10) by lia.
  rewrite Rmult_assoc. f_equal. rewrite <- powerRZ_add by lra. f_equal. lia.
Qed.

Lemma at_most_shift : forall n d i, at_most_digits n (d * 10 ^ i) <-> at_most_digits n d.
Proof.
  intros n d i. split; intros (q & t & E & H).
  - (* d * 10^i = q * 10^t *)
    destruct (N.le_gt_cases i t) as [L|L].
    + exists q, (t - i)%N. split; auto. apply N.mul_cancel_r with (10 ^ i)%N; [apply N.pow_nonzero; lia|].
      rewrite E, <- N.mul_assoc, <- N.pow_add_r. do 2 f_equal. lia.
    + exists d, 0%N. rewrite N.mul_1_r. split; auto. eapply N.le_lt_trans; [|exact H].
      assert (E' : (d * 10 ^ (i - t) = q)%N).
      { apply N.mul_cancel_r with (10 ^ t)%N; [apply N.pow_nonzero; lia|]. rewrite <- E, <- N.mul_assoc, <- N.pow_add_r. do 2 f_equal. lia. }
      rewrite <- E'. assert (10 ^ (i - t) <> 0)%N by (apply N.pow_nonzero; lia). nia.
  - exists q, (t + i)%N. split; auto. rewrite E, N.pow_add_r. lia.
Qed.

Lemma f64_eqb_refl : forall x, f64_eqb x x = true.
Proof.
  intros [s|s| |s m e]; cbn; try apply eqb_reflx; auto. rewrite eqb_reflx, Pos.eqb_refl, Z.eqb_refl. reflexivity.
Qed.

(** [reads_back] of a candidate. *)
Lemma candidate_spec : forall x d j,
  match reads_back x (strip_zeros 20 d j) with
  | Some (d', j') => nearest false (decimal false d j) x /\ decimal false d' j' = decimal false d j /\
      (forall n, at_most_digits n d' <-> at_most_digits n d) /\ (d <> 0 -> d < 10 ^ 20 -> d' mod 10 <> 0)%N
  | None => ~ nearest false (decimal false d j) x
  end.
Proof.
  intros x d j. destruct (strip_spec 20 d j) as (i & H). destruct (strip_zeros 20 d j) as [d' j']. destruct H as (-> & -> & H).
  cbn [reads_back]. rewrite decimal_shift. destruct (f64_eqb (decimal_to_f64 false d' (j + Z.of_N i)) x) eqn:E.
  - apply f64_eqb_eq in E. subst x. split; [apply decimal_nearest|]. split; [reflexivity|]. split; [|exact H].
    intros n. symmetry. apply at_most_shift.
  - intros N. pose proof (nearest_unique _ _ _ _ N (decimal_nearest false d' (j + Z.of_N i))) as E'.
    rewrite <- E', f64_eqb_refl in E. discriminate.
Qed.
