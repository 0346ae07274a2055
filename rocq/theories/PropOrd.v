(** C46 (errors and triples), C52 (orders) and C53 (defaults).

    OrdSpec.v says when a colour is below another one. *)
From Coq Require Import Floats.SpecFloat.
From Verif Require Import ObjModel MtlModel DisplayModel ObjTop ObjImageSpec ObjImageOnly MtlSpec MtlWriteSpec MtlWrite EqModel EqSpec EqProofs
  OrdModel OrdSpec OrdProofs OrdFacts ExampleText.
Local Open Scope list_scope.

(** * C46 *)

Theorem C46_obj_error : forall a b, parse_error_eq obj_kind_discriminant a b = true <-> a = b.
Proof. exact obj_error_eq. Qed.
Print Assumptions C46_obj_error.

Theorem C46_mtl_error : forall a b, parse_error_eq mtl_kind_discriminant a b = true <-> a = b.
Proof. exact mtl_error_eq. Qed.
Print Assumptions C46_mtl_error.

Theorem C46_triple : forall a b, vtn_triple_eq a b = true <-> ~ In S754_nan (triple_numbers a) /\ clean_triple a = clean_triple b.
Proof. exact triple_eq_iff. Qed.
Print Assumptions C46_triple.

Theorem C46_shape : forall a b, shape_eq a b = true <-> a = b.
Proof. exact shape_eq_same. Qed.
Print Assumptions C46_shape.

Example C46_shape_example :
  let a := mkShape (Line (V 0) (V 1)) [lit "g"] [1%N] in
  shape_eq a a = true /\ shape_eq a (mkShape (Line (V 0) (V 1)) [lit "g"] [1%N; 0%N]) = false.
Proof. split; reflexivity. Qed.

(** * C52 *)

Theorem C52_color : forall a b, color_f64 a -> color_f64 b ->
  (color_lt a b = true <-> color_below a b) /\ (color_gt a b = true <-> color_below b a) /\
  (color_le a b = true <-> color_below a b \/ color_same a b) /\ (color_ge a b = true <-> color_below b a \/ color_same a b) /\
  (color_eq a b = true <-> color_same a b).
Proof. exact color_order. Qed.
Print Assumptions C52_color.

(** What Rust requires of [PartialOrd]. *)
Theorem C52_consistent : forall a b, color_eq a b = true <-> color_partial_cmp a b = Some Eq.
Proof. exact color_eq_cmp. Qed.
Print Assumptions C52_consistent.

Theorem C52_dual : forall a b, color_gt b a = color_lt a b.
Proof. exact color_lt_gt. Qed.
Print Assumptions C52_dual.

Theorem C52_transitive : forall a b c, color_f64 a -> color_f64 b -> color_f64 c ->
  color_lt a b = true -> color_lt b c = true -> color_lt a c = true.
Proof. exact color_lt_trans. Qed.
Print Assumptions C52_transitive.

Theorem C52_total : forall a b, color_f64 a -> color_f64 b ->
  ~ In S754_nan (color_numbers a) -> ~ In S754_nan (color_numbers b) ->
  color_lt a b = true \/ color_eq a b = true \/ color_lt b a = true.
Proof. exact color_total. Qed.
Print Assumptions C52_total.

(** The colours of materials that have been read are [color_f64]. *)
Theorem C52_parsed : forall input set m f, MtlModel.parse input = Ok set -> In m (materials set) -> color_f64 (color_of f m).
Proof. exact parsed_colors. Qed.
Print Assumptions C52_parsed.

(** Illumination models are ordered like the numbers that stand for them in a
    file. *)
Theorem C52_illumination : forall i j n m, illum_number n i -> illum_number m j -> illumination_cmp i j = (n ?= m)%N.
Proof. exact illumination_order. Qed.
Print Assumptions C52_illumination.

Definition c (r g b : f64) : color := mkColor r g b.

(** Red decides first, NaN only where it is reached; [-0] is [0]. *)
Example C52_example :
  let one := f64_one in let zero := f64_zero in let minus := S754_zero true in let inf := S754_infinity false in
  color_f64 (c zero one one) /\ color_f64 (c one S754_nan inf) /\
  color_partial_cmp (c zero one one) (c one S754_nan inf) = Some Lt /\
  color_partial_cmp (c zero S754_nan one) (c zero zero one) = None /\
  color_partial_cmp (c zero one inf) (c minus one one) = Some Gt /\
  color_partial_cmp (c zero one inf) (c minus one inf) = Some Eq.
Proof. cbv zeta. unfold color_f64, is_f64. repeat split; vm_compute; reflexivity. Qed.

(** * C53 *)

(** The default object is not equal to any object that has been read. *)
Theorem C53_object : forall dbg input set ob, fits input -> ObjModel.parse dbg input = Ok set -> In ob (objects set) ->
  object_eq object_default ob = false /\ object_eq ob object_default = false.
Proof. exact default_not_parsed. Qed.
Print Assumptions C53_object.

(** It can be shown, and looking up any index in it gives nothing. *)
Theorem C53_object_use : forall dbg i, show_object dbg object_default <> None /\ get_vtn_triple object_default i = None.
Proof. exact default_use. Qed.
Print Assumptions C53_object_use.

Theorem C53_smoothing_group : show_smoothing_group smoothing_group_default = Some (lit "off").
Proof. reflexivity. Qed.
Print Assumptions C53_smoothing_group.

(** What [C53_object] says of a parsed object. *)
Example C53_example :
  match ObjModel.parse true (text "v 0 0 0|p 1") with
  | Ok set => map (fun ob => (group_set ob, smoothing_group_set ob, object_eq object_default ob)) (objects set)
  | _ => []
  end = [([group_default], [smoothing_group_default], false)].
Proof. vm_compute. reflexivity. Qed.
