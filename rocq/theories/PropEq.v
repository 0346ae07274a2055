(** The derived [PartialEq]: C46.

    EqSpec.v says when two results are the same up to the sign of zeros. *)
From Coq Require Import Floats.SpecFloat.
From Verif Require Import ObjModel MtlTypes MtlModel EqModel EqSpec ExampleText EqProofs.
Local Open Scope list_scope.

Theorem C46_object_set : forall a b,
  object_set_eq a b = true <-> ~ In S754_nan (set_numbers a) /\ clean_objects a = clean_objects b.
Proof. exact object_set_eq_iff. Qed.
Print Assumptions C46_object_set.

Theorem C46_material_set : forall a b,
  material_set_eq a b = true <-> ~ In S754_nan (materials_numbers a) /\ clean_materials a = clean_materials b.
Proof. exact material_set_eq_iff. Qed.
Print Assumptions C46_material_set.

(** Two results of the same parse need not be equal. *)
Theorem C46_reflexive_refuted : ~ (forall dbg input a, ObjModel.parse dbg input = Ok a -> object_set_eq a a = true).
Proof.
  intros H. assert (K : exists a, ObjModel.parse false (text "v nan 0 0|p 1") = Ok a /\ object_set_eq a a = false) by (eexists; split; vm_compute; reflexivity).
  destruct K as (a & K1 & K2). rewrite (H _ _ _ K1) in K2. discriminate.
Qed.
Print Assumptions C46_reflexive_refuted.

Theorem C46_mtl_reflexive_refuted : ~ (forall input a, MtlModel.parse input = Ok a -> material_set_eq a a = true).
Proof.
  intros H. assert (K : exists a, MtlModel.parse (text "newmtl a|Ns nan") = Ok a /\ material_set_eq a a = false) by (eexists; split; vm_compute; reflexivity).
  destruct K as (a & K1 & K2). rewrite (H _ _ K1) in K2. discriminate.
Qed.
Print Assumptions C46_mtl_reflexive_refuted.

(** Without NaN they are. *)
Theorem C46_reflexive : forall a, ~ In S754_nan (set_numbers a) -> object_set_eq a a = true.
Proof. intros a H. apply object_set_eq_iff. auto. Qed.
Print Assumptions C46_reflexive.

Theorem C46_mtl_reflexive : forall a, ~ In S754_nan (materials_numbers a) -> material_set_eq a a = true.
Proof. intros a H. apply material_set_eq_iff. auto. Qed.
Print Assumptions C46_mtl_reflexive.

Example C46_example : exists a b c,
  ObjModel.parse true (text "v -0 1 2|p 1") = Ok a /\ ObjModel.parse true (text "v 0 1 2|p 1") = Ok b /\
  ObjModel.parse true (text "v 0 1 2|g x|p 1") = Ok c /\
  a <> b /\ object_set_eq a b = true /\ object_set_eq a c = false /\ set_numbers a <> [].
Proof.
  eexists _, _, _. split; [vm_compute; reflexivity|]. split; [vm_compute; reflexivity|]. split; [vm_compute; reflexivity|].
  split; [discriminate|]. split; [vm_compute; reflexivity|]. split; [vm_compute; reflexivity|discriminate].
Qed.

Example C46_mtl_example : exists a b c,
  MtlModel.parse (text "newmtl a|Ns -0|Ni 1") = Ok a /\ MtlModel.parse (text "newmtl a|Ns 0|Ni 1.0") = Ok b /\
  MtlModel.parse (text "newmtl a|Ns 0") = Ok c /\
  a <> b /\ material_set_eq a b = true /\ material_set_eq a c = false.
Proof.
  eexists _, _, _. split; [vm_compute; reflexivity|]. split; [vm_compute; reflexivity|]. split; [vm_compute; reflexivity|].
  split; [discriminate|]. split; vm_compute; reflexivity.
Qed.
