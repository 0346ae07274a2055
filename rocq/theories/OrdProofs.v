(** The derived orders, and errors and indices compared with [==]. *)
From Coq Require Import Lra.
From Flocq Require Import IEEE754.BinarySingleNaN.
From Flocq Require Import Core.
From Verif Require Import FloatSpec FloatProofs MtlWriteSpec ParserBase ObjTypes MtlTypes EqModel EqSpec EqProofs OrdModel OrdSpec.
Local Open Scope R_scope.

Lemma finite_cmp : forall x y, is_f64 x -> is_f64 y -> finite x -> finite y -> SFcompare x y = Some (Rcompare (value x) (value y)).
Proof.
  intros x y Hx Hy Fx Fy. rewrite !value_SF2R. unfold is_f64 in Hx, Hy.
  pose proof (Bcompare_correct 53 1024 (SF2B x Hx) (SF2B y Hy)) as H. unfold Bcompare in H. rewrite !B2SF_SF2B, !B2R_SF2B in H. apply H.
  - destruct x; auto; destruct Fx.
  - destruct y; auto; destruct Fy.
Qed.

(** What a comparison says about two numbers. *)
Definition cmp_means (x y : f64) (c : option comparison) : Prop :=
  match c with
  | Some Lt => below x y /\ ~ same x y /\ ~ below y x
  | Some Eq => same x y /\ ~ below x y /\ ~ below y x
  | Some Gt => below y x /\ ~ same x y /\ ~ below x y
  | None => ~ below x y /\ ~ same x y /\ ~ below y x
  end.

Lemma cmp_ok : forall x y, is_f64 x -> is_f64 y -> cmp_means x y (f64_partial_cmp x y).
Proof.
  assert (P : forall x y c, (match real_of x, real_of y with
                             | Some a, Some b => match c with
                                                 | Some Lt => number_lt a b /\ a <> b /\ ~ number_lt b a
                                                 | Some Eq => a = b /\ ~ number_lt a b /\ ~ number_lt b a
                                                 | Some Gt => number_lt b a /\ a <> b /\ ~ number_lt a b
                                                 | None => False
                                                 end
                             | _, _ => c = None
                             end) -> cmp_means x y c).
  { intros x y c H. unfold cmp_means, below, same. destruct (real_of x) as [a|], (real_of y) as [b|]; [|subst c..].
    - destruct c as [[| |]|]; [| | |destruct H].
      + destruct H as (-> & H2 & H3). split; [eauto|]. split; intros (a' & b' & E1 & E2 & L); injection E1 as <-; injection E2 as <-; auto.
      + destruct H as (H1 & H2 & H3). split; [eauto|]. split; [intros (a' & E1 & E2); congruence|].
        intros (a' & b' & E1 & E2 & L); injection E1 as <-; injection E2 as <-; auto.
      + destruct H as (H1 & H2 & H3). split; [exists b, a; auto|]. split; [intros (a' & E1 & E2); congruence|].
        intros (a' & b' & E1 & E2 & L); injection E1 as <-; injection E2 as <-; auto.
    - split; [|split]; [intros (a' & b' & E1 & E2 & L)|intros (a' & E1 & E2)|intros (a' & b' & E1 & E2 & L)]; discriminate.
    - split; [|split]; [intros (a' & b' & E1 & E2 & L)|intros (a' & E1 & E2)|intros (a' & b' & E1 & E2 & L)]; discriminate.
    - split; [|split]; [intros (a' & b' & E1 & E2 & L)|intros (a' & E1 & E2)|intros (a' & b' & E1 & E2 & L)]; discriminate. }
  intros x y Hx Hy. apply P. unfold f64_partial_cmp.
  assert (F : finite x -> finite y -> match SFcompare x y with
     | Some Lt => number_lt (Real (value x)) (Real (value y)) /\ Real (value x) <> Real (value y) /\ ~ number_lt (Real (value y)) (Real (value x))
     | Some Eq => Real (value x) = Real (value y) /\ ~ number_lt (Real (value x)) (Real (value y)) /\ ~ number_lt (Real (value y)) (Real (value x))
     | Some Gt => number_lt (Real (value y)) (Real (value x)) /\ Real (value x) <> Real (value y) /\ ~ number_lt (Real (value x)) (Real (value y))
     | None => False end).
  { intros Fx Fy. rewrite finite_cmp by auto. cbn [number_lt]. destruct (Rcompare_spec (value x) (value y)) as [L|E|L].
    - split; auto. split; [intros K; injection K; lra|lra].
    - rewrite E. split; auto. split; lra.
    - split; auto. split; [intros K; injection K; lra|lra]. }
  destruct x as [s|s| |s m e], y as [s'|s'| |s' m' e']; cbn [real_of]; try reflexivity; try (apply F; exact I); clear F P;
    try destruct s; try destruct s'; cbn; repeat split; auto; discriminate.
Qed.

Definition color_means (a b : color) (c : option comparison) : Prop :=
  match c with
  | Some Lt => color_below a b /\ ~ color_same a b /\ ~ color_below b a
  | Some Eq => color_same a b /\ ~ color_below a b /\ ~ color_below b a
  | Some Gt => color_below b a /\ ~ color_same a b /\ ~ color_below a b
  | None => ~ color_below a b /\ ~ color_same a b /\ ~ color_below b a
  end.

Lemma same_sym : forall x y, same x y -> same y x.
Proof. intros x y (a & H1 & H2). exists a. auto. Qed.

Lemma color_cmp_ok : forall a b, color_f64 a -> color_f64 b -> color_means a b (color_partial_cmp a b).
Proof.
  intros a b (A1 & A2 & A3) (B1 & B2 & B3). unfold color_partial_cmp.
  pose proof (cmp_ok _ _ A1 B1) as R. pose proof (cmp_ok _ _ A2 B2) as G. pose proof (cmp_ok _ _ A3 B3) as B.
  pose proof (same_sym (color_r a) (color_r b)). pose proof (same_sym (color_r b) (color_r a)).
  pose proof (same_sym (color_g a) (color_g b)). pose proof (same_sym (color_g b) (color_g a)).
  unfold color_means, color_below, color_same.
  destruct (f64_partial_cmp (color_r a) (color_r b)) as [[| |]|]; cbn [cmp_means] in R; [|tauto..].
  destruct (f64_partial_cmp (color_g a) (color_g b)) as [[| |]|]; cbn [cmp_means] in G; [|tauto..].
  destruct (f64_partial_cmp (color_b a) (color_b b)) as [[| |]|]; cbn [cmp_means] in B; tauto.
Qed.

Theorem color_order : forall a b, color_f64 a -> color_f64 b ->
  (color_lt a b = true <-> color_below a b) /\ (color_gt a b = true <-> color_below b a) /\
  (color_le a b = true <-> color_below a b \/ color_same a b) /\ (color_ge a b = true <-> color_below b a \/ color_same a b) /\
  (color_eq a b = true <-> color_same a b).
Proof.
  intros a b Ha Hb. pose proof (color_cmp_ok a b Ha Hb) as H.
  assert (E : color_eq a b = true <-> color_partial_cmp a b = Some Eq).
  { unfold color_eq, color_partial_cmp, f64_eq, SFeqb, f64_partial_cmp.
    destruct (SFcompare (color_r a) (color_r b)) as [[| |]|]; cbn [andb]; [|split; discriminate..].
    destruct (SFcompare (color_g a) (color_g b)) as [[| |]|]; cbn [andb]; [|split; discriminate..].
    destruct (SFcompare (color_b a) (color_b b)) as [[| |]|]; split; intros K; discriminate || reflexivity. }
  rewrite E. unfold color_lt, color_gt, color_le, color_ge. destruct (color_partial_cmp a b) as [[| |]|]; cbn [color_means] in H;
    (split; [|split; [|split; [|split]]]); split; intros K; try discriminate K; try reflexivity; tauto.
Qed.

(** [==] and [partial_cmp] agree on all colours. *)
Theorem color_eq_cmp : forall a b, color_eq a b = true <-> color_partial_cmp a b = Some Eq.
Proof.
  intros a b. unfold color_eq, color_partial_cmp, f64_eq, SFeqb, f64_partial_cmp.
  destruct (SFcompare (color_r a) (color_r b)) as [[| |]|]; cbn [andb]; [|split; discriminate..].
  destruct (SFcompare (color_g a) (color_g b)) as [[| |]|]; cbn [andb]; [|split; discriminate..].
  destruct (SFcompare (color_b a) (color_b b)) as [[| |]|]; split; intros K; discriminate || reflexivity.
Qed.

Lemma number_lt_trans : forall a b c, number_lt a b -> number_lt b c -> number_lt a c.
Proof. intros [|x|] [|y|] [|z|]; cbn; try tauto. lra. Qed.

Lemma below_trans : forall x y z, below x y -> below y z -> below x z.
Proof.
  intros x y z (a & b & H1 & H2 & L) (b' & c & H3 & H4 & L'). rewrite H2 in H3. injection H3 as <-. exists a, c. split; auto. split; auto.
  eapply number_lt_trans; eauto.
Qed.

Lemma same_below : forall x y z, same x y -> below y z -> below x z.
Proof. intros x y z (a & H1 & H2) (b & c & H3 & H4 & L). rewrite H2 in H3. injection H3 as <-. exists a, c. auto. Qed.

Lemma below_same : forall x y z, below x y -> same y z -> below x z.
Proof. intros x y z (a & b & H1 & H2 & L) (c & H3 & H4). rewrite H2 in H3. injection H3 as <-. exists a, b. auto. Qed.

Lemma same_trans : forall x y z, same x y -> same y z -> same x z.
Proof. intros x y z (a & H1 & H2) (c & H3 & H4). rewrite H2 in H3. injection H3 as <-. exists a. auto. Qed.

Lemma color_below_trans : forall a b c, color_below a b -> color_below b c -> color_below a c.
Proof.
  intros a b c H K. unfold color_below in *.
  destruct H as [H|(H & [H'|(H' & H'')])], K as [K|(K & [K'|(K' & K'')])]; eauto 10 using below_trans, same_below, below_same, same_trans.
Qed.

Theorem color_lt_trans : forall a b c, color_f64 a -> color_f64 b -> color_f64 c ->
  color_lt a b = true -> color_lt b c = true -> color_lt a c = true.
Proof. intros a b c Ha Hb Hc H K. apply color_order in H, K; auto. apply color_order; auto. eapply color_below_trans; eauto. Qed.

(** Without NaN any two colours can be compared. *)
Lemma number_total : forall a b, number_lt a b \/ a = b \/ number_lt b a.
Proof. intros [|x|] [|y|]; cbn; auto. destruct (Rtotal_order x y) as [H|[->|H]]; auto. Qed.

Lemma below_total : forall x y, x <> S754_nan -> y <> S754_nan -> below x y \/ same x y \/ below y x.
Proof.
  intros x y Hx Hy. unfold below, same.
  assert (N : forall z, z <> S754_nan -> exists a, real_of z = Some a) by (intros [s|s| |s m e] H; cbn; eauto; congruence).
  destruct (N x Hx) as (a & Ea). destruct (N y Hy) as (b & Eb). destruct (number_total a b) as [L|[<-|L]]; eauto 10.
Qed.

Theorem color_total : forall a b, color_f64 a -> color_f64 b ->
  ~ In S754_nan (color_numbers a) -> ~ In S754_nan (color_numbers b) ->
  color_lt a b = true \/ color_eq a b = true \/ color_lt b a = true.
Proof.
  intros a b Ha Hb Na Nb. cbn [color_numbers In] in Na, Nb.
  destruct (color_order a b Ha Hb) as (-> & _ & _ & _ & ->). destruct (color_order b a Hb Ha) as (-> & _).
  unfold color_below, color_same.
  destruct (below_total (color_r a) (color_r b)) as [H1|[H1|H1]]; auto; [intuition congruence..|].
  destruct (below_total (color_g a) (color_g b)) as [H2|[H2|H2]]; auto; [intuition congruence..| |]; [|right; right; right; auto using same_sym].
  destruct (below_total (color_b a) (color_b b)) as [H3|[H3|H3]]; auto; [intuition congruence..|]. right. right. right. auto using same_sym.
Qed.

(** * Errors and triples *)

Lemma obj_kind_injective : forall a b, obj_kind_discriminant a = obj_kind_discriminant b -> a = b.
Proof. intros [] [] H; try reflexivity; discriminate H. Qed.

Lemma mtl_kind_injective : forall a b, mtl_kind_discriminant a = mtl_kind_discriminant b -> a = b.
Proof. intros [] [] H; try reflexivity; discriminate H. Qed.

Lemma parse_error_eq_iff : forall K (d : K -> nat), (forall a b, d a = d b -> a = b) -> forall a b, parse_error_eq d a b = true <-> a = b.
Proof.
  intros K d Hd [l k m] [l' k' m']. unfold parse_error_eq. cbn [err_line_number err_kind err_message].
  rewrite !andb_true_iff, !Nat.eqb_eq, bytes_eqb_eq. split.
  - intros [[-> H] ->]. apply Hd in H. now subst.
  - intros H. apply (f_equal err_line_number) in H as H1. apply (f_equal err_kind) in H as H2. apply (f_equal err_message) in H as H3.
    cbn in H1, H2, H3. subst. auto.
Qed.

Theorem shape_eq_same : forall a b, shape_eq a b = true <-> a = b.
Proof.
  intros [a1 a2 a3] [b1 b2 b3]. unfold shape_eq. cbn [shape_element shape_groups shape_smoothing_groups].
  rewrite !andb_true_iff, element_eq_iff, (vec_same_iff _ _ bytes_eqb_eq), (vec_same_iff _ _ N.eqb_eq).
  split; [intros [[-> ->] ->]; auto|intros K; injection K; auto].
Qed.

Theorem obj_error_eq : forall a b, parse_error_eq obj_kind_discriminant a b = true <-> a = b.
Proof. apply parse_error_eq_iff, obj_kind_injective. Qed.

Theorem mtl_error_eq : forall a b, parse_error_eq mtl_kind_discriminant a b = true <-> a = b.
Proof. apply parse_error_eq_iff, mtl_kind_injective. Qed.

Definition triple_v (t : vtn_triple) : vertex := match t with TripleV v | TripleVT v _ | TripleVN v _ | TripleVTN v _ _ => v end.
Definition triple_t (t : vtn_triple) : option texture_vertex := match t with TripleVT _ t | TripleVTN _ t _ => Some t | _ => None end.
Definition triple_n (t : vtn_triple) : option normal_vertex := match t with TripleVN _ n | TripleVTN _ _ n => Some n | _ => None end.

Lemma triple_parts : forall a b, a = b -> triple_v a = triple_v b /\ triple_t a = triple_t b /\ triple_n a = triple_n b.
Proof. intros a b ->. auto. Qed.

Lemma some_same : forall A (x y : A), Some x = Some y -> x = y.
Proof. intros A x y H. now injection H. Qed.

Theorem triple_eq_iff : forall a b, vtn_triple_eq a b = true <-> ~ In S754_nan (triple_numbers a) /\ clean_triple a = clean_triple b.
Proof.
  intros a b. change (~ In S754_nan (triple_numbers a)) with (no_nan (triple_numbers a)).
  destruct a as [v|v t|v n|v t n], b as [v'|v' t'|v' n'|v' t' n']; cbn [vtn_triple_eq clean_triple triple_numbers];
    try (split; [discriminate|intros [_ K]; discriminate K]);
    unfold vertex_numbers, texture_numbers, normal_numbers;
    rewrite ?no_nan_app, ?andb_true_iff, ?vertex_eq_iff, ?texture_eq_iff, ?normal_eq_iff.
  - split; [intros [H ->]; auto|intros [H K]; apply triple_parts in K as (K1 & K2 & K3); cbn [triple_v triple_t triple_n] in *; auto].
  - split; [intros [[H ->] [H' ->]]; auto|intros [H K]; apply triple_parts in K as (K1 & K2 & K3)].
    cbn [triple_v triple_t triple_n] in *. apply some_same in K2. tauto.
  - split; [intros [[H ->] [H' ->]]; auto|intros [H K]; apply triple_parts in K as (K1 & K2 & K3)].
    cbn [triple_v triple_t triple_n] in *. apply some_same in K3. tauto.
  - split; [intros [[[H ->] [H' ->]] [H'' ->]]; auto|intros [H K]; apply triple_parts in K as (K1 & K2 & K3)].
    cbn [triple_v triple_t triple_n] in *. apply some_same in K2, K3. tauto.
Qed.
