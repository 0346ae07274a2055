(** The derived equalities. *)
From Coq Require Import Floats.SpecFloat.
From Verif Require Import ObjTypes MtlTypes EqModel EqSpec.
Local Open Scope list_scope.

Lemma f64_eq_iff : forall x y, f64_eq x y = true <-> x <> S754_nan /\ unsigned_zero x = unsigned_zero y.
Proof.
  intros [s|s| |s m e] [s'|s'| |s' m' e']; unfold f64_eq, SFeqb; cbn [SFcompare unsigned_zero];
    try (destruct s); try (destruct s'); split; try (intros H; discriminate H); try (intros [H1 H2]; discriminate H2 || congruence);
    try (intros _; split; [discriminate|reflexivity]); try reflexivity.
  - intros H. split; [discriminate|]. destruct (Z.compare_spec e e'); try discriminate H. subst. f_equal.
    change (Pos.compare_cont Eq m m') with (m ?= m')%positive in H. destruct (Pos.compare_spec m m'); congruence || discriminate.
  - intros [_ H]. injection H as -> ->. rewrite Z.compare_refl. change (Pos.compare_cont Eq m' m') with (m' ?= m')%positive. now rewrite Pos.compare_refl.
  - intros H. split; [discriminate|]. destruct (Z.compare_spec e e'); try discriminate H. subst. f_equal.
    change (Pos.compare_cont Eq m m') with (m ?= m')%positive in H. destruct (Pos.compare_spec m m'); congruence || discriminate.
  - intros [_ H]. injection H as -> ->. rewrite Z.compare_refl. change (Pos.compare_cont Eq m' m') with (m' ?= m')%positive. now rewrite Pos.compare_refl.
Qed.

Definition no_nan (l : list f64) : Prop := ~ In S754_nan l.

Lemma no_nan_app : forall a b, no_nan (a ++ b) <-> no_nan a /\ no_nan b.
Proof. intros a b. unfold no_nan. rewrite in_app_iff. tauto. Qed.

Lemma no_nan_cons : forall x l, no_nan (x :: l) <-> x <> S754_nan /\ no_nan l.
Proof. intros x l. unfold no_nan. cbn. split; [intros H; split; intros K; apply H; auto|intros [H1 H2] [K|K]; auto]. Qed.

Lemma no_nan_nil : no_nan [] <-> True.
Proof. unfold no_nan. cbn. tauto. Qed.

Lemma vec_eq_iff : forall A (eq : A -> A -> bool) (clean : A -> A) (numbers : A -> list f64),
  (forall x y, eq x y = true <-> no_nan (numbers x) /\ clean x = clean y) ->
  forall a b, vec_eq eq a b = true <-> no_nan (flat_map numbers a) /\ map clean a = map clean b.
Proof.
  intros A eq clean numbers H a. induction a as [|x a IH]; intros [|y b]; cbn [vec_eq flat_map map].
  - rewrite no_nan_nil. tauto.
  - split; [discriminate|intros [_ K]; discriminate].
  - split; [discriminate|intros [_ K]; discriminate].
  - rewrite andb_true_iff, H, IH, no_nan_app. split; [intros [[H1 ->] [H2 ->]]; auto|intros [[H1 H2] K]; injection K as K1 K2; auto].
Qed.

Lemma vec_same_iff : forall A (eq : A -> A -> bool), (forall x y, eq x y = true <-> x = y) -> forall a b, vec_eq eq a b = true <-> a = b.
Proof.
  intros A eq H a. induction a as [|x a IH]; intros [|y b]; cbn [vec_eq]; try (split; [discriminate|intros K; discriminate]); [tauto|].
  rewrite andb_true_iff, H, IH. split; [intros [-> ->]; auto|intros K; injection K; auto].
Qed.

Lemma option_same_iff : forall A (eq : A -> A -> bool), (forall x y, eq x y = true <-> x = y) -> forall a b, option_eq eq a b = true <-> a = b.
Proof.
  intros A eq H [x|] [y|]; cbn [option_eq]; try (split; [discriminate|intros K; discriminate]); [|tauto].
  rewrite H. split; [intros ->; auto|intros K; now injection K].
Qed.

Lemma vertex_eq_iff : forall a b, vertex_eq a b = true <-> no_nan [vx a; vy a; vz a; vw a] /\ clean_vertex a = clean_vertex b.
Proof.
  intros a b. unfold vertex_eq, clean_vertex. rewrite !andb_true_iff, !f64_eq_iff, !no_nan_cons, no_nan_nil.
  split; [intros ((([? ->] & [? ->]) & [? ->]) & [? ->])|intros (? & K); injection K as K1 K2 K3 K4]; tauto.
Qed.

Lemma texture_eq_iff : forall a b, texture_vertex_eq a b = true <-> no_nan [tu a; tv a; tw a] /\ clean_texture a = clean_texture b.
Proof.
  intros a b. unfold texture_vertex_eq, clean_texture. rewrite !andb_true_iff, !f64_eq_iff, !no_nan_cons, no_nan_nil.
  split; [intros (([? ->] & [? ->]) & [? ->])|intros (? & K); injection K as K1 K2 K3]; tauto.
Qed.

Lemma normal_eq_iff : forall a b, normal_vertex_eq a b = true <-> no_nan [nx a; ny a; nz a] /\ clean_normal a = clean_normal b.
Proof.
  intros a b. unfold normal_vertex_eq, clean_normal. rewrite !andb_true_iff, !f64_eq_iff, !no_nan_cons, no_nan_nil.
  split; [intros (([? ->] & [? ->]) & [? ->])|intros (? & K); injection K as K1 K2 K3]; tauto.
Qed.

Lemma color_eq_iff : forall a b, color_eq a b = true <-> no_nan (color_numbers a) /\ clean_color a = clean_color b.
Proof.
  intros a b. unfold color_eq, clean_color, color_numbers. rewrite !andb_true_iff, !f64_eq_iff, !no_nan_cons, no_nan_nil.
  split; [intros (([? ->] & [? ->]) & [? ->])|intros (? & K); injection K as K1 K2 K3]; tauto.
Qed.

Lemma index_eq_iff : forall a b, vtn_index_eq a b = true <-> a = b.
Proof.
  intros [] []; cbn [vtn_index_eq]; rewrite ?andb_true_iff, ?Nat.eqb_eq; (split; [intros H; try discriminate H; intuition congruence|]);
    intros K; try discriminate K; injection K; auto.
Qed.

Lemma element_eq_iff : forall a b, element_eq a b = true <-> a = b.
Proof.
  intros [] []; cbn [element_eq]; rewrite ?andb_true_iff, ?index_eq_iff; (split; [intros H; try discriminate H; intuition congruence|]);
    intros K; try discriminate K; injection K; auto.
Qed.

Lemma shape_eq_iff : forall a b, shape_entry_eq a b = true <-> a = b.
Proof.
  intros [a1 a2 a3] [b1 b2 b3]. unfold shape_entry_eq. cbn [se_element se_groups se_smoothing_group].
  rewrite !andb_true_iff, !Nat.eqb_eq, (vec_same_iff _ _ Nat.eqb_eq). split; [intros [[-> ->] ->]; auto|intros K; injection K; auto].
Qed.

Lemma geometry_eq_iff : forall a b, geometry_eq a b = true <-> a = b.
Proof.
  intros [a1 a2] [b1 b2]. unfold geometry_eq. cbn [material_name shapes].
  rewrite andb_true_iff, (option_same_iff _ _ bytes_eqb_eq), (vec_same_iff _ _ Nat.eqb_eq). split; [intros [-> ->]; auto|intros K; injection K; auto].
Qed.

Lemma object_eq_iff : forall a b, object_eq a b = true <-> no_nan (object_numbers a) /\ clean_object a = clean_object b.
Proof.
  intros a b. unfold object_eq, object_numbers, clean_object.
  rewrite !andb_true_iff, bytes_eqb_eq, (vec_eq_iff _ _ _ _ vertex_eq_iff), (vec_eq_iff _ _ _ _ texture_eq_iff), (vec_eq_iff _ _ _ _ normal_eq_iff),
    (vec_same_iff _ _ bytes_eqb_eq), (vec_same_iff _ _ N.eqb_eq), (vec_same_iff _ _ element_eq_iff), (vec_same_iff _ _ shape_eq_iff),
    (vec_same_iff _ _ geometry_eq_iff), !no_nan_app.
  split.
  - intros ((((((((-> & [? ->]) & [? ->]) & [? ->]) & ->) & ->) & ->) & ->) & ->). tauto.
  - intros (? & K). injection K as K1 K2 K3 K4 K5 K6 K7 K8 K9. tauto.
Qed.

Theorem object_set_eq_iff : forall a b, object_set_eq a b = true <-> no_nan (set_numbers a) /\ clean_objects a = clean_objects b.
Proof.
  intros a b. unfold object_set_eq, set_numbers, clean_objects.
  rewrite andb_true_iff, (vec_same_iff _ _ bytes_eqb_eq), (vec_eq_iff _ _ _ _ object_eq_iff).
  split; [intros (-> & ? & ->); auto|intros (? & K); injection K as K1 K2; auto].
Qed.

Lemma illumination_eq_iff : forall a b, illumination_eq a b = true <-> a = b.
Proof. intros [] []; cbn; split; congruence. Qed.

Lemma option_f64_iff : forall a b, option_eq f64_eq a b = true <->
  no_nan (match a with Some x => [x] | None => [] end) /\ option_map unsigned_zero a = option_map unsigned_zero b.
Proof.
  intros [x|] [y|]; cbn [option_eq option_map]; rewrite ?f64_eq_iff, ?no_nan_cons, ?no_nan_nil;
    (split; [intros H; try discriminate H|intros [H1 H2]; try discriminate H2]); try tauto.
  - destruct H as [H ->]. auto.
  - injection H2 as H2. tauto.
Qed.

Lemma material_eq_iff : forall a b, material_eq a b = true <-> no_nan (material_numbers a) /\ clean_material a = clean_material b.
Proof.
  intros a b. unfold material_eq, material_numbers, clean_material.
  rewrite !andb_true_iff, bytes_eqb_eq, !color_eq_iff, !f64_eq_iff, option_f64_iff, illumination_eq_iff,
    !(option_same_iff _ _ bytes_eqb_eq), !no_nan_app, !no_nan_cons, no_nan_nil.
  split.
  - intros (((((((((((((((((-> & [? ->]) & [? ->]) & [? ->]) & [? ->]) & [? ->]) & [? ->]) & [? ->]) & ->) & ->) & ->) & ->) & ->) & ->) & ->) & ->) & ->) & ->). tauto.
  - intros (? & K).
    pose proof (f_equal name K) as K1.
    pose proof (f_equal color_ambient K) as K2.
    pose proof (f_equal color_diffuse K) as K3.
    pose proof (f_equal color_specular K) as K4.
    pose proof (f_equal color_emissive K) as K5.
    pose proof (f_equal specular_exponent K) as K6.
    pose proof (f_equal dissolve K) as K7.
    pose proof (f_equal optical_density K) as K8.
    pose proof (f_equal illumination_model K) as K9.
    pose proof (f_equal map_ambient K) as K10.
    pose proof (f_equal map_diffuse K) as K11.
    pose proof (f_equal map_specular K) as K12.
    pose proof (f_equal map_emissive K) as K13.
    pose proof (f_equal map_specular_exponent K) as K14.
    pose proof (f_equal map_bump K) as K15.
    pose proof (f_equal map_displacement K) as K16.
    pose proof (f_equal map_dissolve K) as K17.
    pose proof (f_equal map_decal K) as K18.
    clear K. cbn [name color_ambient color_diffuse color_specular color_emissive specular_exponent dissolve optical_density illumination_model map_ambient map_diffuse map_specular map_emissive map_specular_exponent map_bump map_displacement map_dissolve map_decal] in K1, K2, K3, K4, K5, K6, K7, K8, K9, K10, K11, K12, K13, K14, K15, K16, K17, K18. tauto.
Qed.

Theorem material_set_eq_iff : forall a b, material_set_eq a b = true <-> no_nan (materials_numbers a) /\ clean_materials a = clean_materials b.
Proof.
  intros a b. unfold material_set_eq, materials_numbers, clean_materials. rewrite (vec_eq_iff _ _ _ _ material_eq_iff).
  split; [intros (? & ->); auto|intros (? & K); injection K as K; auto].
Qed.
