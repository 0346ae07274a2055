(** The texts of [{:?}]: C75.  DebugSpec.v says what string literals mean. *)
From Coq Require Import Floats.SpecFloat.
From Verif Require Import ObjModel ObjTop DebugModel DebugSpec FloatSpec FmtSpec EqSpec DisplayModel ExampleText DebugText DebugNumber DebugProofs.
From Verif Require MtlTypes MtlModel.
Local Open Scope list_scope.

(** * C75 *)

(** Results with the same text are the same. *)
Theorem C75_obj : forall ch dbg dbg' input input' t, fits input -> fits input' ->
  debug_obj_result ch (ObjModel.parse dbg input) = Some t -> debug_obj_result ch (ObjModel.parse dbg' input') = Some t ->
  ObjModel.parse dbg input = ObjModel.parse dbg' input'.
Proof. exact obj_debug_same. Qed.
Print Assumptions C75_obj.

Theorem C75_mtl : forall ch input input' t,
  debug_mtl_result ch (MtlModel.parse input) = Some t -> debug_mtl_result ch (MtlModel.parse input') = Some t ->
  MtlModel.parse input = MtlModel.parse input'.
Proof. exact mtl_debug_same. Qed.
Print Assumptions C75_mtl.

(** So are values that were not parsed, ... *)
Theorem C75_object_set : forall ch a b, Forall is_f64 (set_numbers a) -> Forall is_f64 (set_numbers b) ->
  debug_object_set ch a = debug_object_set ch b -> a = b.
Proof. intros ch a b Ha Hb. now apply (unambiguous_inj _ _ _ a b (unambiguous_object_set ch)). Qed.
Print Assumptions C75_object_set.

Theorem C75_material_set : forall ch a b, Forall is_f64 (materials_numbers a) -> Forall is_f64 (materials_numbers b) ->
  debug_material_set ch a = debug_material_set ch b -> a = b.
Proof. intros ch a b Ha Hb. now apply (unambiguous_inj _ _ _ a b (unambiguous_material_set ch)). Qed.
Print Assumptions C75_material_set.

(** ... and errors. *)
Theorem C75_obj_error : forall ch a b, debug_parse_error debug_error_kind ch a = debug_parse_error debug_error_kind ch b -> a = b.
Proof. intros ch a b. now apply (unambiguous_inj _ _ _ a b (unambiguous_error _ _ ch unambiguous_kind)). Qed.
Print Assumptions C75_obj_error.

Theorem C75_mtl_error : forall ch a b, debug_parse_error debug_mtl_error_kind ch a = debug_parse_error debug_mtl_error_kind ch b -> a = b.
Proof. intros ch a b. now apply (unambiguous_inj _ _ _ a b (unambiguous_error _ _ ch unambiguous_mtl_kind)). Qed.
Print Assumptions C75_mtl_error.

(** A string is written as a literal that means this string, ... *)
Theorem C75_string : forall ch s, exists t, debug_str ch s = "034"%char :: t ++ ["034"%char] /\ literal_body t s.
Proof. exact debug_str_literal. Qed.
Print Assumptions C75_string.

(** ... no other string, and the literal ends at the last quotation mark. *)
Theorem C75_literal : forall t s t' s' r r', literal_body t s -> literal_body t' s' ->
  t ++ "034"%char :: r = t' ++ "034"%char :: r' -> s = s' /\ r = r'.
Proof. exact literal_unique. Qed.
Print Assumptions C75_literal.

(** A number is written with the digits of [{}] and a point or an exponent, ... *)
Theorem C75_number : forall ch s m e, is_f64 (S754_finite s m e) -> exists d k e',
  decimal_text (debug_f64 ch (S754_finite s m e)) s d k e' /\ best_decimal s d (e' - Z.of_nat k) (S754_finite s m e) /\
  (In "."%char (debug_f64 ch (S754_finite s m e)) \/ In "e"%char (debug_f64 ch (S754_finite s m e))).
Proof.
  intros ch s m e H. destruct (debug_f64_text ch s m e H) as (d & k & e' & H1 & H2 & H3 & _). exists d, k, e'. auto.
Qed.
Print Assumptions C75_number.

(** ... and reads back. *)
Theorem C75_number_read : forall ch x, is_f64 x -> parse_f64 (debug_f64 ch x) = Some x.
Proof. exact debug_f64_read. Qed.
Print Assumptions C75_number_read.

(** [{}] does not determine the result: the material libraries are missing. *)
Theorem C75_display_refuted : ~ (forall dbg input input' a b t, ObjModel.parse dbg input = Ok a -> ObjModel.parse dbg input' = Ok b ->
  show_object_set dbg a = Some t -> show_object_set dbg b = Some t -> a = b).
Proof.
  intros H. assert (K : exists a b t, ObjModel.parse true (text "mtllib a.mtl|v 0 0 0|p 1") = Ok a /\ ObjModel.parse true (text "v 0 0 0|p 1") = Ok b /\
    show_object_set true a = Some t /\ show_object_set true b = Some t /\ material_libraries a <> material_libraries b).
  { do 3 eexists. split; [vm_compute; reflexivity|]. split; [vm_compute; reflexivity|]. split; [vm_compute; reflexivity|].
    split; [vm_compute; reflexivity|discriminate]. }
  destruct K as (a & b & t & K1 & K2 & K3 & K4 & K5). apply K5. f_equal. eapply H; eauto.
Qed.
Print Assumptions C75_display_refuted.

(** Characters beyond ASCII are shown, but for the byte order mark. *)
Definition some_choices : choices := mkChoices (fun n => negb (n =? 65279)%N) new_exponent.

Example C75_example :
  debug_obj_result some_choices (ObjModel.parse true (text "mtllib a.mtl|v 1e16 -0 1e-4 9e-5|v 12345e-9 100 nan 1e23|usemtl x|g a b|s 1|l 1 2")) =
  Some (lit "Ok(ObjectSet { material_libraries: [""a.mtl""], objects: [Object { name: """", " ++
        lit "vertex_set: [Vertex { x: 1e16, y: -0.0, z: 0.0001, w: 9e-5 }, Vertex { x: 1.2345e-5, y: 100.0, z: NaN, w: 1e23 }], " ++
        lit "texture_vertex_set: [], normal_vertex_set: [], group_set: [Group(""a""), Group(""b"")], smoothing_group_set: [SmoothingGroup(1)], " ++
        lit "element_set: [Line(V(0), V(1))], shape_set: [ShapeEntry { element: 0, groups: [0, 1], smoothing_group: 0 }], " ++
        lit "geometry_set: [Geometry { material_name: Some(""x""), shapes: [0] }] }] })").
Proof. vm_compute. reflexivity. Qed.

Example C75_example_error :
  debug_obj_result some_choices (ObjModel.parse true (text "v 0 0 0|""\x")) =
  Some (lit "Err(ParseError { line_number: 2, kind: InvalidObjectStatement, message: ""Unsupported or invalid object statement `\""`."" })").
Proof. vm_compute. reflexivity. Qed.

Example C75_example_mtl :
  debug_mtl_result some_choices (MtlModel.parse (text "newmtl a|Ni 100|Ns -2.5e300|map_Ka a.png")) =
  Some (lit "Ok(MaterialSet { materials: [Material { name: ""a"", color_ambient: Color { r: 0.0, g: 0.0, b: 0.0 }, " ++
        lit "color_diffuse: Color { r: 0.0, g: 0.0, b: 0.0 }, color_specular: Color { r: 0.0, g: 0.0, b: 0.0 }, " ++
        lit "color_emissive: Color { r: 0.0, g: 0.0, b: 0.0 }, specular_exponent: -2.5e300, dissolve: 1.0, optical_density: Some(100.0), " ++
        lit "illumination_model: AmbientDiffuseSpecular, map_ambient: Some(""a.png""), map_diffuse: None, map_specular: None, " ++
        lit "map_emissive: None, map_specular_exponent: None, map_bump: None, map_displacement: None, map_dissolve: None, map_decal: None }] })").
Proof. vm_compute. reflexivity. Qed.

(** A byte order mark, two characters that are shown, a tab, a line feed, a
    quotation mark, DEL, NUL. *)
Example C75_example_string :
  debug_str some_choices (map ascii_of_N [239; 187; 191; 195; 169; 97; 9; 10; 34; 127; 0]%N) =
  lit """\u{feff}" ++ map ascii_of_N [195; 169]%N ++ lit "a\t\n\""\u{7f}\0""".
Proof. vm_compute. reflexivity. Qed.
