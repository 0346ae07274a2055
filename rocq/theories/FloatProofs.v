(** [decimal_to_f64] is correctly rounded. *)
From Coq Require Import Lra.
From Flocq Require Import Core Core.Ulp Core.Round_NE.
From Flocq Require Import IEEE754.BinarySingleNaN.
From Verif Require Import FloatSpec NumberProofs.
Local Open Scope R_scope.

Local Instance prec_gt_0_64 : Prec_gt_0 53 := eq_refl.
Local Instance prec_lt_emax_64 : Prec_lt_emax 53 1024 := eq_refl.

Notation fexp64 := (SpecFloat.fexp 53 1024).
Local Instance valid_64 : Valid_exp fexp64 := FLT_exp_valid (3 - 1024 - 53) 53.
Notation format64 := (generic_format radix2 fexp64).
Notation round64 := (round radix2 fexp64 ZnearestE).

Lemma round_nearest_even_choice : forall s m l, SpecFloat.round_nearest_even m l = choice_mode mode_NE s m l.
Proof.
  intros s m l. case l; [reflexivity|intro c]. case c; [|reflexivity..].
  now simpl; unfold Round.cond_incr; case Z.even.
Qed.

Lemma round_aux_same : forall sx mx ex lx,
  SpecFloat.binary_round_aux 53 1024 sx mx ex lx = BinarySingleNaN.binary_round_aux 53 1024 mode_NE sx mx ex lx.
Proof.
  intros sx mx ex lx. unfold SpecFloat.binary_round_aux, BinarySingleNaN.binary_round_aux.
  set (mrse' := shr_fexp _ _ _). case mrse'; intros mrs' e'; simpl. now rewrite (round_nearest_even_choice sx).
Qed.

(** ** Values *)

Lemma powerRZ_bpow : forall e, powerRZ 2 e = bpow radix2 e.
Proof. intros e. rewrite bpow_powerRZ. reflexivity. Qed.

Lemma value_SF2R : forall x, value x = SF2R radix2 x.
Proof.
  intros [s|s| |s m e]; try reflexivity. cbn [value SF2R]. unfold F2R. cbn [Fnum Fexp]. rewrite powerRZ_bpow.
  destruct s; cbn [signed cond_Zopp].
  - rewrite opp_IZR. ring.
  - reflexivity.
Qed.

Lemma format_value : forall x, is_f64 x -> format64 (value x).
Proof.
  intros x H. rewrite value_SF2R. destruct x as [s|s| |s m e]; try apply generic_format_0.
  apply generic_format_canonical. now apply (canonical_bounded 53 1024).
Qed.

Lemma IZR_pow : forall b e, (0 <= e)%Z -> IZR (b ^ e) = powerRZ (IZR b) e.
Proof. intros b [|p|p] H; [reflexivity|apply IZR_Zpower_pos|lia]. Qed.

Lemma split_pow : forall e, (IZR (10 ^ Z.max e 0) / IZR (10 ^ Z.max (- e) 0))%R = powerRZ 10 e.
Proof.
  intros e. rewrite !IZR_pow by lia. unfold Rdiv. rewrite <- powerRZ_neg'. rewrite <- powerRZ_add by lra. f_equal. lia.
Qed.

Lemma signed_abs : forall neg r, Rabs (signed neg r) = Rabs r.
Proof. intros [] r; cbn; [apply Rabs_Ropp|reflexivity]. Qed.

(** ** Rounding *)

Lemma decimal_round : forall neg p e,
  let r := decimal neg (Npos p) e in
  let z := decimal_to_f64 neg (Npos p) e in
  is_f64 z /\
  if Rlt_bool (Rabs (round64 r)) (bpow radix2 1024) then value z = round64 r /\ finite z /\ sign_of z = neg
  else z = S754_infinity neg.
Proof.
  intros neg p e r z.
  assert (Hn : (0 < Z.pos p * 10 ^ Z.max e 0)%Z) by (apply Z.mul_pos_pos; [lia|apply Z.pow_pos_nonneg; lia]).
  assert (Hd : (0 < 10 ^ Z.max (- e) 0)%Z) by (apply Z.pow_pos_nonneg; lia).
  destruct (Z.pos p * 10 ^ Z.max e 0)%Z as [|num|] eqn:En; try lia.
  destruct (10 ^ Z.max (- e) 0)%Z as [|den|] eqn:Ed; try lia.
  assert (Ez : @eq spec_float z (let '(mz, ez, lz) := SFdiv_core_binary 53 1024 (Zpos num) 0 (Zpos den) 0 in
                   BinarySingleNaN.binary_round_aux 53 1024 mode_NE (xorb neg false) mz ez lz)).
  { unfold z, decimal_to_f64, prec64, emax64. rewrite En, Ed. destruct (SFdiv_core_binary _ _ _ _ _ _) as [[mz ez] lz].
    rewrite xorb_false_r. apply round_aux_same. }
  pose proof (Bdiv_correct_aux 53 1024 _ _ mode_NE neg num 0 false den 0) as H. cbv zeta in H.
  rewrite <- Ez in H. rewrite xorb_false_r in H.
  assert (Er : (F2R (Float radix2 (cond_Zopp neg (Z.pos num)) 0) / F2R (Float radix2 (cond_Zopp false (Z.pos den)) 0))%R = r).
  { unfold F2R. cbn [Fnum Fexp bpow cond_Zopp]. rewrite !Rmult_1_r. unfold r, decimal. cbn [Z.of_N].
    rewrite <- split_pow. rewrite <- Ed. unfold Rdiv. rewrite <- Rmult_assoc. rewrite <- mult_IZR, En.
    destruct neg; cbn [signed cond_Zopp]; [|reflexivity]. rewrite opp_IZR. ring. }
  rewrite Er in H. destruct H as [H1 H2]. split; [exact H1|]. change (round_mode mode_NE) with ZnearestE in H2.
  destruct (Rlt_bool _ _).
  - rewrite value_SF2R. destruct H2 as (H2 & H3 & H4). split; auto. split.
    + destruct z; try discriminate H3; exact I.
    + destruct z; exact H4.
  - exact H2.
Qed.

Notation top := (bpow radix2 1024).

Lemma pred_top : pred radix2 fexp64 top = top - bpow radix2 971.
Proof. rewrite pred_bpow. reflexivity. Qed.

Lemma format_top : format64 top.
Proof. apply generic_format_bpow. cbn. lia. Qed.

Lemma format_pred : format64 (pred radix2 fexp64 top).
Proof. apply generic_format_pred; [exact _|apply format_top]. Qed.

Lemma bound_top : overflow_bound = top - bpow radix2 970.
Proof. unfold overflow_bound. now rewrite !powerRZ_bpow. Qed.

Lemma two_970 : bpow radix2 971 = bpow radix2 970 + bpow radix2 970.
Proof. change 971%Z with (1 + 970)%Z. rewrite bpow_plus. change (bpow radix2 1) with 2. ring. Qed.

Lemma below_bound : forall r, Rabs r < overflow_bound -> Rabs (round64 r) < top.
Proof.
  intros r H. rewrite <- round_NE_abs by exact _.
  apply Rle_lt_trans with (pred radix2 fexp64 top).
  - apply round_N_le_midp; [exact _|apply format_pred|].
    rewrite succ_pred; [|exact _|apply format_top]. rewrite pred_top. rewrite bound_top in H. rewrite two_970 in *. lra.
  - rewrite pred_top. pose proof (bpow_gt_0 radix2 971). lra.
Qed.

Local Instance exists_NE_64 : Exists_NE radix2 fexp64 :=
  exists_NE_FLT radix2 (3 - 1024 - 53) 53 (or_intror eq_refl).

(** The largest number is odd. *)
Definition largest : float radix2 := Float radix2 9007199254740991 971.

Lemma largest_value : F2R largest = pred radix2 fexp64 top.
Proof.
  rewrite pred_top. unfold F2R, largest. cbn [Fnum Fexp]. change 1024%Z with (53 + 971)%Z. rewrite bpow_plus.
  change (bpow radix2 53) with (IZR 9007199254740992). change 9007199254740992%Z with (9007199254740991 + 1)%Z.
  rewrite plus_IZR. ring.
Qed.

Lemma largest_canonical : canonical radix2 fexp64 largest.
Proof.
  apply (canonical_bounded 53 1024 false 9007199254740991 971). reflexivity.
Qed.

Lemma at_bound : round64 overflow_bound = top.
Proof.
  pose proof (round_NE_pt radix2 fexp64 overflow_bound) as [[Hf Hn] Ho].
  pose proof (Hn top format_top) as H1. rewrite bound_top in *.
  set (f := round64 _) in *. pose proof (bpow_gt_0 radix2 970) as Hp.
  replace (top - (top - bpow radix2 970)) with (bpow radix2 970) in H1 by ring. rewrite (Rabs_pos_eq (bpow radix2 970)) in H1 by lra.
  apply Rabs_le_inv in H1.
  destruct (Rlt_or_le f top) as [Hlt|Hge]; [|lra].
  pose proof (pred_ge_gt radix2 fexp64 _ _ Hf format_top Hlt) as H2. rewrite pred_top, two_970 in H2.
  assert (Ef : f = pred radix2 fexp64 top) by (rewrite pred_top, two_970; lra).
  exfalso. destruct Ho as [(g & E & Hc & He)|Ho].
  - rewrite Ef, <- largest_value in E. pose proof (canonical_unique _ _ _ _ largest_canonical Hc E) as <-. discriminate He.
  - assert (Ht : Rnd_N_pt format64 (top - bpow radix2 970) top).
    { split; [apply format_top|]. intros g Hg. replace (top - (top - bpow radix2 970)) with (bpow radix2 970) by ring.
      rewrite (Rabs_pos_eq (bpow radix2 970)) by lra.
      destruct (Rlt_or_le g top) as [Hl|Hg'].
      - pose proof (pred_ge_gt radix2 fexp64 _ _ Hg format_top Hl) as H3. rewrite pred_top, two_970 in H3.
        rewrite Rabs_left1; lra.
      - rewrite Rabs_pos_eq; lra. }
    apply Ho in Ht. lra.
Qed.

Lemma above_bound : forall r, overflow_bound <= Rabs r -> top <= Rabs (round64 r).
Proof.
  intros r H. rewrite <- round_NE_abs by exact _. rewrite <- at_bound. apply round_le; auto; exact _.
Qed.

Lemma even_canonical : forall x g, is_f64 x -> finite x -> value x = F2R g -> canonical radix2 fexp64 g ->
  Z.even (Fnum g) = true -> even_mantissa x.
Proof.
  intros x g Hv Hf E Hc He. destruct x as [s|s| |s m e]; cbn; auto. rewrite value_SF2R in E. cbn [SF2R] in E.
  assert (Hx : canonical radix2 fexp64 (Float radix2 (cond_Zopp s (Z.pos m)) e)) by (now apply (canonical_bounded 53 1024)).
  pose proof (canonical_unique _ _ _ _ Hx Hc E) as <-. cbn [Fnum] in He. destruct s; auto.
Qed.

Lemma value_zero_m : forall neg e, decimal neg 0 e = 0.
Proof. intros neg e. unfold decimal. cbn [Z.of_N]. rewrite Rmult_0_l. destruct neg; cbn; lra. Qed.

Lemma bound_pos : 0 < overflow_bound.
Proof. rewrite bound_top. assert (bpow radix2 970 < top) by (apply bpow_lt; lia). lra. Qed.

Theorem decimal_nearest : forall neg m e, nearest neg (decimal neg m e) (decimal_to_f64 neg m e).
Proof.
  intros neg [|p] e.
  - rewrite value_zero_m. cbn [decimal_to_f64]. repeat split; auto.
    + intros y _ _. cbn [value]. rewrite Rminus_0_r, Rabs_R0. apply Rabs_pos.
    + intros H. rewrite Rabs_R0 in H. pose proof bound_pos. lra.
  - destruct (decimal_round neg p e) as [H1 H2]. cbv zeta in H2.
    set (r := decimal neg (N.pos p) e) in *. set (x := decimal_to_f64 neg (N.pos p) e) in *.
    split; [exact H1|]. destruct (Rlt_bool_spec (Rabs (round64 r)) top) as [Hlt|Hge].
    + destruct H2 as (H2 & H3 & H4). split; auto.
      pose proof (round_NE_pt radix2 fexp64 r) as [[Hf Hn] Ho]. rewrite <- H2 in *.
      split; [intros _|intros Hb].
      * split; auto. split.
        -- intros y Hy _. apply Hn. now apply format_value.
        -- intros y Hy Hfy E Hne. destruct Ho as [(g & Eg & Hc & He)|Ho]; [eapply even_canonical; eauto|].
           exfalso. apply Hne. apply Ho. split; [now apply format_value|]. intros g Hg. rewrite <- E. now apply Hn.
      * exfalso. apply above_bound in Hb. rewrite <- H2 in Hb. lra.
    + split; [rewrite H2; reflexivity|]. split; [|auto]. intros Hb. apply below_bound in Hb. lra.
Qed.

(** ** Numbers far out *)

Lemma powerRZ_10_le : forall a b, (a <= b)%Z -> powerRZ 10 a <= powerRZ 10 b.
Proof.
  intros a b H. replace b with (a + (b - a))%Z by lia. rewrite powerRZ_add by lra.
  assert (1 <= powerRZ 10 (b - a)).
  { rewrite <- (IZR_pow 10) by lia. apply IZR_le. assert (0 < 10 ^ (b - a))%Z by (apply Z.pow_pos_nonneg; lia). lia. }
  assert (0 < powerRZ 10 a) by (apply powerRZ_lt; lra). nra.
Qed.

Lemma powerRZ_2_400 : overflow_bound <= powerRZ 10 400.
Proof.
  unfold overflow_bound. assert (0 < powerRZ 2 970) by (apply powerRZ_lt; lra).
  assert (powerRZ 2 1024 <= powerRZ 10 400).
  { rewrite <- (IZR_pow 2), <- (IZR_pow 10) by lia. apply IZR_le. apply Z.leb_le. vm_compute. reflexivity. }
  lra.
Qed.

Lemma powerRZ_small : powerRZ 10 (-400) < powerRZ 2 (-1075).
Proof.
  change (-400)%Z with (- (400))%Z. change (-1075)%Z with (- (1075))%Z. rewrite !powerRZ_neg'.
  apply Rinv_lt_contravar.
  - apply Rmult_lt_0_compat; apply powerRZ_lt; lra.
  - rewrite <- (IZR_pow 2), <- (IZR_pow 10) by lia. apply IZR_lt. apply Z.ltb_lt. vm_compute. reflexivity.
Qed.

Lemma decimal_large : forall neg m e, (0 < m)%N -> (400 <= e)%Z -> decimal_to_f64 neg m e = S754_infinity neg.
Proof.
  intros neg m e Hm He. destruct (decimal_nearest neg m e) as (_ & _ & _ & H). apply H. clear H.
  unfold decimal. rewrite signed_abs. assert (Hp : 0 < powerRZ 10 e) by (apply powerRZ_lt; lra).
  assert (1 <= IZR (Z.of_N m)) by (apply IZR_le; lia).
  rewrite Rabs_pos_eq by nra. pose proof powerRZ_2_400. pose proof (powerRZ_10_le _ _ He). nra.
Qed.

Lemma f64_above : forall s m e, is_f64 (S754_finite s m e) -> powerRZ 2 (-1074) <= Rabs (value (S754_finite s m e)).
Proof.
  intros s m e H. cbn [value]. rewrite signed_abs.
  assert (He : (-1074 <= e)%Z).
  { unfold is_f64 in H. cbn [valid_binary] in H. unfold bounded in H. apply andb_prop in H. destruct H as [H _].
    unfold canonical_mantissa in H. apply Zeq_bool_eq in H. unfold SpecFloat.fexp, SpecFloat.emin in H. lia. }
  assert (H1 : 1 <= IZR (Z.pos m)) by (apply IZR_le; lia).
  assert (H2 : powerRZ 2 (-1074) <= powerRZ 2 e) by (rewrite !powerRZ_bpow; now apply bpow_le).
  assert (0 < powerRZ 2 e) by (apply powerRZ_lt; lra).
  rewrite Rabs_pos_eq by nra. nra.
Qed.

Lemma small_zero : forall neg r x, nearest neg r x -> Rabs r < powerRZ 2 (-1075) -> x = S754_zero neg.
Proof.
  intros neg r x (Hv & Hs & Hn & _) Hr.
  assert (Hb : powerRZ 2 (-1075) < overflow_bound).
  { rewrite bound_top. rewrite powerRZ_bpow. assert (bpow radix2 (-1075) < bpow radix2 970) by (apply bpow_lt; lia).
    pose proof two_970. assert (bpow radix2 971 < top) by (apply bpow_lt; lia). lra. }
  destruct Hn as (Hf & Hnear & _); [lra|].
  destruct x as [s|s| |s m e]; cbn in Hf, Hs; try tauto; try congruence.
  exfalso. pose proof (f64_above _ _ _ Hv) as Ha. specialize (Hnear (S754_zero false) eq_refl I). change (value (S754_zero false)) with 0 in Hnear.
  assert (E : powerRZ 2 (-1074) = 2 * powerRZ 2 (-1075)).
  { rewrite !powerRZ_bpow. change (-1074)%Z with (1 + -1075)%Z. rewrite bpow_plus. reflexivity. }
  set (v := value (S754_finite s m e)) in *.
  assert (Ht : Rabs v <= Rabs (v - r) + Rabs r).
  { replace v with ((v - r) + r) at 1 by ring. apply Rabs_triang. }
  replace (0 - r) with (- r) in Hnear by ring. rewrite Rabs_Ropp in Hnear. lra.
Qed.

Lemma decimal_small : forall neg m e l, (Z.of_N m < 10 ^ l)%Z -> (0 <= l)%Z -> (l + e <= -400)%Z ->
  decimal_to_f64 neg m e = S754_zero neg.
Proof.
  intros neg m e l Hm Hl He. eapply small_zero; [apply decimal_nearest|].
  unfold decimal. rewrite signed_abs. assert (Hp : 0 < powerRZ 10 e) by (apply powerRZ_lt; lra).
  assert (H0 : 0 <= IZR (Z.of_N m)) by (apply IZR_le; lia).
  rewrite Rabs_pos_eq by nra.
  apply IZR_lt in Hm. rewrite (IZR_pow 10) in Hm by lia.
  assert (H1 : powerRZ 10 l * powerRZ 10 e <= powerRZ 10 (-400)) by (rewrite <- powerRZ_add by lra; now apply powerRZ_10_le).
  pose proof powerRZ_small. nra.
Qed.

(** ** Texts *)

Lemma digits_bound : forall s n, digits s n -> (Z.of_N n < 10 ^ Z.of_nat (List.length s))%Z.
Proof.
  intros s n H. induction H as [|s n c d H IH Hd]; [reflexivity|].
  rewrite app_length. cbn [List.length]. replace (Z.of_nat (List.length s + 1)) with (Z.succ (Z.of_nat (List.length s))) by lia.
  rewrite Z.pow_succ_r by lia. assert (Z.of_N d <= 9)%Z by (destruct Hd; lia). lia.
Qed.

Lemma mantissa_bound : forall s m k, mantissa_text s m k ->
  (Z.of_N m < 10 ^ Z.of_nat (List.length s))%Z /\ (k <= List.length s)%nat.
Proof.
  intros s m k H. destruct H as [ds m _ H|a b m _ H].
  - split; [now apply digits_bound|lia].
  - apply digits_bound in H. rewrite !app_length in *. cbn [List.length]. split; [|lia].
    eapply Z.lt_le_trans; [exact H|]. apply Z.pow_le_mono_r; lia.
Qed.

Lemma saturated_same : forall neg m k l e e', (Z.of_N m < 10 ^ Z.of_nat l)%Z -> (k <= l)%nat -> saturated e e' ->
  (Z.of_nat l <= 60000)%Z \/ (-65536 < e < 65536)%Z ->
  decimal_to_f64 neg m (e' - Z.of_nat k) = decimal_to_f64 neg m (e - Z.of_nat k).
Proof.
  intros neg m k l e e' Hm Hk Hs Hl.
  destruct Hs as [->|[Hs|Hs]]; auto.
  - destruct m as [|p]; [reflexivity|]. rewrite !decimal_large by lia. reflexivity.
  - rewrite !(decimal_small neg m _ (Z.of_nat l)) by lia. reflexivity.
Qed.

Theorem decimal_text_parsed : forall s neg m k e, decimal_text s neg m k e ->
  (Z.of_nat (List.length s) <= 60000)%Z \/ (-65536 < e < 65536)%Z ->
  parse_f64 s = Some (decimal_to_f64 neg m (e - Z.of_nat k)).
Proof.
  intros s neg m k e (sg & mt & ex & -> & Hs & Hm & He) Hl.
  destruct (parse_decimal_text _ _ _ _ _ Hm He) as (e' & Hsat & Ed).
  apply parse_f64_iff. left. exists sg, mt, ex, neg, m, k, e, e'. repeat (split; [assumption || reflexivity|]).
  destruct (mantissa_bound _ _ _ Hm) as [H1 H2]. symmetry. apply (saturated_same neg m k (List.length mt)); auto.
  rewrite !app_length in Hl. destruct Hl; [left|right]; lia.
Qed.

Theorem decimal_text_nearest : forall s neg m k e, decimal_text s neg m k e ->
  (Z.of_nat (List.length s) <= 60000)%Z \/ (-65536 < e < 65536)%Z ->
  exists x, parse_f64 s = Some x /\ nearest neg (decimal neg m (e - Z.of_nat k)) x.
Proof.
  intros s neg m k e H Hl. eexists. split; [eapply decimal_text_parsed; eauto|]. apply decimal_nearest.
Qed.

Theorem accepted_iff : forall s, (exists x, parse_f64 s = Some x) <->
  (exists neg m k e, decimal_text s neg m k e) \/ (exists neg, infinity_text s neg) \/ nan_text s.
Proof.
  intros s. split.
  - intros (x & H). apply parse_f64_iff in H.
    destruct H as [(sg & mt & ex & neg & m & k & e & e' & -> & Hs & Hm & He & _)|[(neg & H & _)|(H & _)]]; eauto.
    left. exists neg, m, k, e. exists sg, mt, ex. auto.
  - intros [(neg & m & k & e & sg & mt & ex & -> & Hs & Hm & He)|[(neg & H)|H]].
    + destruct (parse_decimal_text _ _ _ _ _ Hm He) as (e' & Hsat & Ed).
      eexists. apply parse_f64_iff. left. exists sg, mt, ex, neg, m, k, e, e'. repeat (split; [eassumption || reflexivity|]). reflexivity.
    + eexists. apply parse_f64_iff. right. left. eauto.
    + eexists. apply parse_f64_iff. right. right. eauto.
Qed.

Theorem infinity_parsed : forall s neg, infinity_text s neg -> parse_f64 s = Some (S754_infinity neg).
Proof. intros. apply parse_f64_iff. right. left. eauto. Qed.

Theorem nan_parsed : forall s, nan_text s -> parse_f64 s = Some S754_nan.
Proof. intros. apply parse_f64_iff. right. right. eauto. Qed.

Theorem parsed_is_f64 : forall s x, parse_f64 s = Some x -> is_f64 x.
Proof.
  intros s x H. apply parse_f64_iff in H.
  destruct H as [(sg & mt & ex & neg & m & k & e & e' & _ & _ & _ & _ & _ & _ & ->)|[(neg & _ & ->)|(_ & ->)]]; try reflexivity.
  apply decimal_nearest.
Qed.

(** ** There is only one *)

Lemma format_f64 : forall r, format64 r -> Rabs r < top -> exists x, is_f64 x /\ finite x /\ value x = r.
Proof.
  intros r Hf Hr. rewrite Hf in Hr |- *. set (m := Ztrunc (scaled_mantissa radix2 fexp64 r)) in *. set (e := cexp radix2 fexp64 r) in *.
  assert (Hf' : format64 (F2R (Float radix2 m e))) by (unfold m, e; rewrite <- Hf; exact Hf).
  pose proof (binary_normalize_correct 53 1024 _ _ mode_NE m e false) as H. cbv zeta in H.
  rewrite round_generic in H; [|exact _|exact Hf'].
  rewrite Rlt_bool_true in H by exact Hr. destruct H as (H1 & H2 & _).
  set (z := BinarySingleNaN.binary_normalize 53 1024 _ _ mode_NE m e false) in *. exists (B2SF z). split; [apply valid_binary_B2SF|]. split.
  - destruct z; cbn in *; auto; discriminate.
  - rewrite value_SF2R, SF2R_B2SF. exact H1.
Qed.

Lemma same_value : forall x y, is_f64 x -> is_f64 y -> finite x -> finite y -> value x = value y -> sign_of x = sign_of y -> x = y.
Proof.
  assert (H0 : forall s m e, value (S754_finite s m e) <> 0).
  { intros s m e. cbn [value]. assert (0 < powerRZ 2 e) by (apply powerRZ_lt; lra). assert (0 < IZR (Zpos m)) by (apply IZR_lt; lia).
    assert (0 < IZR (Zpos m) * powerRZ 2 e) by (apply Rmult_lt_0_compat; auto). destruct s; cbn [signed]; lra. }
  intros [s|s| |s m e] [s'|s'| |s' m' e'] Hx Hy Fx Fy E Es; cbn in Fx, Fy; try tauto.
  - cbn in Es. now subst.
  - exfalso. apply (H0 s' m' e'). now rewrite <- E.
  - exfalso. apply (H0 s m e). now rewrite E.
  - rewrite !value_SF2R in E. pose proof (B2R_inj 53 1024 (B754_finite s m e Hx) (B754_finite s' m' e' Hy) eq_refl eq_refl E) as H.
    injection H as -> -> ->. reflexivity.
Qed.

Lemma even_prop : forall r x, is_f64 x -> finite x -> even_mantissa x -> NE_prop radix2 fexp64 r (value x).
Proof.
  intros r [s|s| |s m e] H Hf He; cbn in Hf; try tauto.
  - exists (Float radix2 0 (fexp64 (mag radix2 0))). split; [cbn [value]; now rewrite F2R_0|]. split; [apply canonical_0|reflexivity].
  - exists (Float radix2 (cond_Zopp s (Z.pos m)) e). split; [now rewrite value_SF2R|].
    split; [now apply (canonical_bounded 53 1024)|]. cbn [Fnum]. destruct s; exact He.
Qed.

Theorem nearest_unique : forall neg r x y, nearest neg r x -> nearest neg r y -> x = y.
Proof.
  intros neg r x y (Hx & Sx & Lx & Gx) (Hy & Sy & Ly & Gy).
  destruct (Rlt_le_dec (Rabs r) overflow_bound) as [Hr|Hr]; [|rewrite Gx, Gy; auto].
  destruct (Lx Hr) as (Fx & Nx & Ex). destruct (Ly Hr) as (Fy & Ny & Ey).
  apply same_value; auto; [|congruence].
  assert (E : Rabs (value x - r) = Rabs (value y - r)) by (apply Rle_antisym; auto).
  destruct (Req_dec (value x) (value y)) as [|Hne]; auto.
  pose proof (round_NE_pt radix2 fexp64 r) as [[Zf Zn] _].
  destruct (format_f64 _ Zf (below_bound _ Hr)) as (z & Hz & Fz & Ez).
  assert (P : forall w, is_f64 w -> finite w -> even_mantissa w -> Rabs (value w - r) <= Rabs (value z - r) -> Rnd_NE_pt radix2 fexp64 r (value w)).
  { intros w Hw Fw Ew Dw. split; [|left; now apply even_prop].
    split; [now apply format_value|]. intros g Hg. eapply Rle_trans; [exact Dw|]. rewrite Ez. now apply Zn. }
  assert (Px : Rnd_NE_pt radix2 fexp64 r (value x)) by (apply P; auto; apply (Ex y); auto).
  assert (Py : Rnd_NE_pt radix2 fexp64 r (value y)) by (apply P; auto; apply (Ey x); auto).
  apply Rle_antisym; eapply (Rnd_NE_pt_monotone radix2 fexp64); eauto; apply Rle_refl.
Qed.
