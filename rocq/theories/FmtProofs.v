(** The texts that [Display] gives for numbers read back. *)
From Coq Require Import Lra DecimalPos DecimalN.
From Flocq Require Import Core.
From Flocq Require Import IEEE754.BinarySingleNaN.
From Verif Require Import RustFmt FloatSpec NumberProofs FloatProofs.
Local Open Scope char_scope.
Local Open Scope list_scope.

(** * Integers *)

Lemma uint_acc : forall d acc, digits_val (Npos acc) (uint_bytes d) = Some (Npos (Pos.of_uint_acc d acc)).
Proof.
  induction d as [|d IH|d IH|d IH|d IH|d IH|d IH|d IH|d IH|d IH|d IH]; intros acc; [reflexivity|..];
    cbn [uint_bytes digits_val Pos.of_uint_acc];
    match goal with |- context [digit_val ?c] => let r := eval vm_compute in (digit_val c) in change (digit_val c) with r end;
    cbv iota beta; rewrite <- IH; f_equal; lia.
Qed.

Lemma uint_value : forall d, digits_val 0 (uint_bytes d) = Some (Pos.of_uint d).
Proof.
  induction d as [|d IH|d IH|d IH|d IH|d IH|d IH|d IH|d IH|d IH|d IH]; [reflexivity|exact IH|..];
    cbn [uint_bytes digits_val Pos.of_uint]; rewrite <- uint_acc; reflexivity.
Qed.

Lemma show_N_digits : forall n, digits (show_N n) n.
Proof.
  intros n. apply digits_val_digits. unfold show_N. rewrite uint_value. f_equal. exact (DecimalN.Unsigned.of_to n).
Qed.

Lemma show_N_some : forall n, show_N n <> [].
Proof.
  intros n. unfold show_N. destruct n as [|p]; [discriminate|]. cbn [N.to_uint].
  pose proof (DecimalPos.Unsigned.to_uint_nonnil p) as H. destruct (Pos.to_uint p); congruence || discriminate.
Qed.

(** * Decimal numbers *)

Lemma digits_zeros_after : forall s n k, digits s n -> digits (s ++ repeat "0" k) (n * 10 ^ N.of_nat k).
Proof.
  intros s n k H. induction k as [|k IH].
  - cbn. rewrite app_nil_r. now rewrite N.mul_1_r.
  - replace (repeat "0" (S k)) with (repeat "0" k ++ ["0"]) by (symmetry; apply repeat_cons).
    rewrite app_assoc. replace (n * 10 ^ N.of_nat (S k))%N with (10 * (n * 10 ^ N.of_nat k) + 0)%N.
    + constructor; [exact IH|constructor].
    + rewrite Nat2N.inj_succ, N.pow_succ_r'. lia.
Qed.

Lemma digits_zero_before : forall s n, digits s n -> digits ("0" :: s) n.
Proof.
  intros s n H. apply digits_val_digits. apply digits_val_digits in H. exact H.
Qed.

Lemma digits_zeros_before : forall s n k, digits s n -> digits (repeat "0" k ++ s) n.
Proof. intros s n k H. induction k as [|k IH]; cbn [repeat app]; auto. now apply digits_zero_before. Qed.

Lemma write_decimal_text : forall d j, exists m k, mantissa_text (write_decimal d j) m k /\
  forall neg, decimal_to_f64 neg m (- Z.of_nat k) = decimal_to_f64 neg d j.
Proof.
  intros d j. unfold write_decimal. pose proof (show_N_digits d) as Hd. pose proof (show_N_some d) as Hs.
  destruct (Z.leb_spec 0 j) as [Hj|Hj].
  - exists (d * 10 ^ N.of_nat (Z.to_nat j))%N, 0. split.
    + constructor; [|now apply digits_zeros_after]. destruct (show_N d); [congruence|discriminate].
    + intros neg. change (- Z.of_nat 0)%Z with 0%Z. destruct d as [|p]; [reflexivity|].
      assert (E : exists q, (N.pos p * 10 ^ N.of_nat (Z.to_nat j))%N = N.pos q /\ Z.pos q = (Z.pos p * 10 ^ j)%Z).
      { assert (Hz : Z.of_N (N.pos p * 10 ^ N.of_nat (Z.to_nat j)) = (Z.pos p * 10 ^ j)%Z).
        { rewrite N2Z.inj_mul, N2Z.inj_pow, nat_N_Z, Z2Nat.id by lia. reflexivity. }
        assert (0 < 10 ^ j)%Z by (apply Z.pow_pos_nonneg; lia).
        destruct (N.pos p * 10 ^ N.of_nat (Z.to_nat j))%N as [|q]; [change (0 = Z.pos p * 10 ^ j)%Z in Hz; nia|]. exists q. auto. }
      destruct E as (q & -> & Eq). cbn [decimal_to_f64]. rewrite Eq.
      replace (Z.max j 0) with j by lia. replace (Z.max (- j) 0) with 0%Z by lia.
      change (Z.max (- 0) 0) with 0%Z. change (Z.max 0 0) with 0%Z. now rewrite Z.mul_1_r.
  - set (k := Z.to_nat (- j)). exists d, k. split; [|intros neg; f_equal; unfold k; lia].
    destruct (Nat.ltb_spec k (List.length (show_N d))) as [Hlt|Hge].
    + set (n := List.length (show_N d) - k).
      assert (E : firstn n (show_N d) ++ skipn n (show_N d) = show_N d) by apply firstn_skipn.
      assert (Hk : k = List.length (skipn n (show_N d))) by (rewrite skipn_length; unfold n; lia).
      replace (mantissa_text (firstn n (show_N d) ++ "." :: skipn n (show_N d)) d k) with
        (mantissa_text (firstn n (show_N d) ++ "." :: skipn n (show_N d)) d (List.length (skipn n (show_N d)))) by (now rewrite <- Hk).
      constructor; rewrite E; auto.
    + change ("0" :: "." :: repeat "0" (k - List.length (show_N d)) ++ show_N d) with
        (["0"] ++ "." :: repeat "0" (k - List.length (show_N d)) ++ show_N d).
      assert (Hk : k = List.length (repeat "0" (k - List.length (show_N d)) ++ show_N d)).
      { rewrite app_length, repeat_length. lia. }
      revert Hk. generalize (k - List.length (show_N d)). intros n ->. constructor; [discriminate|].
      cbn [app]. apply digits_zero_before. now apply digits_zeros_before.
Qed.

(** The sign does not matter for the rest. *)
Definition with_sign (neg : bool) (x : f64) : f64 :=
  match x with
  | S754_zero _ => S754_zero neg
  | S754_infinity _ => S754_infinity neg
  | S754_finite _ m e => S754_finite neg m e
  | S754_nan => S754_nan
  end.

Lemma decimal_sign : forall neg d j, decimal_to_f64 neg d j = with_sign neg (decimal_to_f64 false d j).
Proof.
  intros neg [|p] j; [reflexivity|]. cbn [decimal_to_f64]. destruct (SFdiv_core_binary _ _ _ _ _ _) as [[q ex] l].
  unfold SpecFloat.binary_round_aux. destruct (shr_fexp _ _ _ _ _) as [mrs e]. destruct (shr_fexp _ _ _ _ _) as [mrs' e'].
  destruct (shr_m mrs'); try reflexivity. destruct (_ <=? _)%Z; reflexivity.
Qed.

Lemma f64_eqb_eq : forall x y, f64_eqb x y = true -> x = y.
Proof.
  intros [s|s| |s m e] [s'|s'| |s' m' e'] H; try discriminate H; cbn in H.
  - apply eqb_prop in H. congruence.
  - apply eqb_prop in H. congruence.
  - reflexivity.
  - apply andb_prop in H. destruct H as [H H3]. apply andb_prop in H. destruct H as [H1 H2].
    apply eqb_prop in H1. apply Pos.eqb_eq in H2. apply Z.eqb_eq in H3. congruence.
Qed.

Lemma reads_back_ok : forall x c d j, reads_back x c = Some (d, j) -> decimal_to_f64 false d j = x.
Proof.
  intros x [d0 j0] d j H. cbn in H. destruct (f64_eqb _ _) eqn:E; [|discriminate]. injection H as <- <-. now apply f64_eqb_eq.
Qed.

Lemma shortest_ok : forall fuel k x num den p d j, shortest fuel k x num den p = Some (d, j) -> decimal_to_f64 false d j = x.
Proof.
  induction fuel as [|fuel IH]; intros k x num den p d j H; [discriminate|]. cbn [shortest] in H.
  match type of H with match ?a with _ => _ end = _ => destruct a as [[d1 j1]|] eqn:E1 end;
  match type of H with match ?a with _ => _ end = _ => destruct a as [[d2 j2]|] eqn:E2 end.
  - apply reads_back_ok in E1, E2. destruct (_ <? _)%Z; injection H as <- <-; auto.
  - apply reads_back_ok in E1. injection H as <- <-; auto.
  - apply reads_back_ok in E2. injection H as <- <-; auto.
  - eauto.
Qed.

(** ** All digits *)

Local Open Scope R_scope.

Local Instance prec_gt_0_64' : Prec_gt_0 53 := eq_refl.
Local Instance prec_lt_emax_64' : Prec_lt_emax 53 1024 := eq_refl.

Lemma value_inj : forall m e x, is_f64 (S754_finite false m e) -> is_f64 x -> finite x -> value x = value (S754_finite false m e) ->
  x = S754_finite false m e.
Proof.
  intros m e x Hm Hx Hf E.
  assert (Hv : value (S754_finite false m e) <> 0).
  { cbn [value signed]. assert (0 < powerRZ 2 e) by (apply powerRZ_lt; lra). assert (0 < IZR (Zpos m)) by (apply IZR_lt; lia). nra. }
  destruct x as [s|s| |s m' e']; cbn in Hf; try tauto; [exfalso; apply Hv; now rewrite <- E|].
  rewrite !value_SF2R in E.
  pose proof (B2R_inj 53 1024 (B754_finite s m' e' Hx) (B754_finite false m e Hm) eq_refl eq_refl E) as H.
  injection H as -> -> ->. reflexivity.
Qed.

Lemma below_largest : forall m e, is_f64 (S754_finite false m e) -> Rabs (value (S754_finite false m e)) < overflow_bound.
Proof.
  intros m e H. pose proof (format_value _ H) as Hf.
  assert (Hlt : value (S754_finite false m e) < bpow radix2 1024).
  { rewrite value_SF2R. apply (bounded_lt_emax 53 1024 m e). exact H. }
  pose proof (pred_ge_gt radix2 (SpecFloat.fexp 53 1024) _ _ Hf format_top Hlt) as Hp. rewrite pred_top, two_970 in Hp.
  rewrite bound_top. pose proof (bpow_gt_0 radix2 970). rewrite Rabs_pos_eq; [lra|].
  cbn [value signed]. assert (0 < powerRZ 2 e) by (apply powerRZ_lt; lra). assert (0 < IZR (Zpos m)) by (apply IZR_lt; lia). nra.
Qed.

Lemma exact_value : forall m e, let '(d, j) := exact_decimal m e in decimal false d j = value (S754_finite false m e).
Proof.
  intros m e. unfold exact_decimal. destruct (Z.leb_spec 0 e) as [He|He]; unfold decimal; cbn [value signed].
  - assert (0 < 2 ^ e)%Z by (apply Z.pow_pos_nonneg; lia).
    rewrite Z2N.id by lia. rewrite powerRZ_O, Rmult_1_r. rewrite mult_IZR. now rewrite (IZR_pow 2) by lia.
  - assert (0 < 5 ^ (- e))%Z by (apply Z.pow_pos_nonneg; lia).
    rewrite Z2N.id by lia. rewrite mult_IZR. rewrite (IZR_pow 5) by lia. rewrite Rmult_assoc. f_equal.
    replace 10 with (5 * 2) by lra. rewrite powerRZ_mult. rewrite <- Rmult_assoc.
    rewrite <- powerRZ_add by lra. replace (- e + e)%Z with 0%Z by lia. rewrite powerRZ_O. ring.
Qed.

Lemma exact_ok : forall m e d j, is_f64 (S754_finite false m e) -> exact_decimal m e = (d, j) ->
  decimal_to_f64 false d j = S754_finite false m e.
Proof.
  intros m e d j H E. pose proof (exact_value m e) as Hv. rewrite E in Hv.
  destruct (decimal_nearest false d j) as (H1 & _ & H2 & _). rewrite Hv in H2.
  destruct (H2 (below_largest _ _ H)) as (Hf & Hn & _).
  apply value_inj; auto. specialize (Hn _ H I). rewrite Rminus_eq_0, Rabs_R0 in Hn.
  pose proof (Rabs_pos (value (decimal_to_f64 false d j) - value (S754_finite false m e))) as Hp.
  assert (E0 : Rabs (value (decimal_to_f64 false d j) - value (S754_finite false m e)) = 0) by lra.
  apply Rabs_eq_R0 in E0. lra.
Qed.

Lemma decimal_of_ok : forall m e d j, is_f64 (S754_finite false m e) -> decimal_of m e = (d, j) ->
  decimal_to_f64 false d j = S754_finite false m e.
Proof.
  intros m e d j H E. unfold decimal_of in E. destruct (shortest _ _ _ _ _ _) as [[d' j']|] eqn:Es.
  - injection E as <- <-. eapply shortest_ok; eauto.
  - now apply exact_ok.
Qed.

(** * Reading back *)

Theorem show_f64_read : forall x, is_f64 x -> parse_f64 (show_f64 x) = Some x.
Proof.
  intros [s|s| |s m e] H; try (destruct s; reflexivity); [reflexivity|]. cbn [show_f64].
  destruct (decimal_of m e) as [d j] eqn:E. apply decimal_of_ok in E; [|exact H].
  destruct (write_decimal_text d j) as (m' & k & Hm & Hv).
  assert (Hx : decimal_to_f64 s m' (0 - Z.of_nat k) = S754_finite s m e).
  { change (0 - Z.of_nat k)%Z with (- Z.of_nat k)%Z. rewrite Hv, decimal_sign, E. reflexivity. }
  rewrite <- Hx. apply decimal_text_parsed; [|right; lia].
  exists (if s then lit "-" else [])%list, (write_decimal d j), []%list. split; [now rewrite app_nil_r|].
  split; [destruct s; constructor|]. split; auto. constructor.
Qed.
