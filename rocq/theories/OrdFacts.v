(** Lemmas for PropOrd.v that need the parsers. *)
From Coq Require Import Floats.SpecFloat.
From Verif Require Import ObjModel MtlModel DisplayModel ObjTop ObjImageSpec ObjImageOnly MtlSpec MtlWriteSpec MtlWrite EqModel EqSpec EqProofs
  OrdModel OrdSpec OrdProofs.
Local Open Scope list_scope.

Lemma f64_cmp_swap : forall x y, f64_partial_cmp y x = option_map CompOpp (f64_partial_cmp x y).
Proof.
  intros [s|s| |s m e] [s'|s'| |s' m' e']; unfold f64_partial_cmp; cbn [SFcompare option_map]; try destruct s; try destruct s'; try reflexivity;
    rewrite (Z.compare_antisym e e'); destruct (e ?= e')%Z; cbn [CompOpp option_map]; try reflexivity;
    change (Pos.compare_cont Eq m m') with (m ?= m')%positive; change (Pos.compare_cont Eq m' m) with (m' ?= m)%positive;
    rewrite (Pos.compare_antisym m m'); destruct (m ?= m')%positive; reflexivity.
Qed.

Theorem color_lt_gt : forall a b, color_gt b a = color_lt a b.
Proof.
  intros a b. unfold color_gt, color_lt, color_partial_cmp.
  rewrite (f64_cmp_swap (color_r a)), (f64_cmp_swap (color_g a)), (f64_cmp_swap (color_b a)).
  destruct (f64_partial_cmp (color_r a) (color_r b)) as [[| |]|]; cbn [option_map CompOpp]; try reflexivity.
  destruct (f64_partial_cmp (color_g a) (color_g b)) as [[| |]|]; cbn [option_map CompOpp]; try reflexivity.
  destruct (f64_partial_cmp (color_b a) (color_b b)) as [[| |]|]; reflexivity.
Qed.

Theorem parsed_colors : forall input set m f, MtlModel.parse input = Ok set -> In m (materials set) -> color_f64 (color_of f m).
Proof.
  intros input [ms] m f H Hm. assert (K : exists input, MtlModel.parse input = Ok (mkMaterialSet ms)) by eauto.
  apply readable_iff in K as [K _]. rewrite Forall_forall in K. destruct (K m Hm) as (C & _). apply C.
Qed.

Theorem illumination_order : forall i j n m, illum_number n i -> illum_number m j -> illumination_cmp i j = (n ?= m)%N.
Proof. intros i j n m Hi Hj. destruct Hi; destruct Hj; reflexivity. Qed.

Theorem default_not_parsed : forall dbg input set ob, fits input -> ObjModel.parse dbg input = Ok set -> In ob (objects set) ->
  object_eq object_default ob = false /\ object_eq ob object_default = false.
Proof.
  intros dbg input set ob Hf Hok Hi. destruct (parsed_possible _ _ _ Hf Hok) as (_ & _ & H). rewrite Forall_forall in H.
  pose proof (possible_geometries _ _ (H ob Hi)) as [_ G].
  split; apply not_true_iff_false; intros K; apply object_eq_iff in K as [_ K]; apply (f_equal geometry_set) in K;
    cbn [clean_object object_default geometry_set] in K; [rewrite <- K in G|rewrite K in G]; exact G.
Qed.

Theorem default_use : forall dbg i, show_object dbg object_default <> None /\ get_vtn_triple object_default i = None.
Proof.
  intros dbg i. split; [destruct dbg; vm_compute; discriminate|].
  destruct i as [v|v t|v n|v t n]; destruct v; reflexivity.
Qed.
