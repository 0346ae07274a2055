(** The texts of [{:#?}]: C76.  PrettySpec.v says what line breaks are. *)
From Verif Require Import ObjModel ObjTop PrettyModel PrettySpec ExampleText DebugText PrettyText PrettyOnly PropDebug.
From Verif Require MtlTypes MtlModel.
Local Open Scope list_scope.

(** * C76 *)

(** Without its line breaks the text is that of [{:?}]; there is one if and only if
    there is the other. *)
Theorem C76_unbroken_obj : forall ch r, option_map unbroken (pretty_obj_result ch r) = debug_obj_result ch r.
Proof. exact obj_unbroken. Qed.
Print Assumptions C76_unbroken_obj.

Theorem C76_unbroken_mtl : forall ch r, option_map unbroken (pretty_mtl_result ch r) = debug_mtl_result ch r.
Proof. exact mtl_unbroken. Qed.
Print Assumptions C76_unbroken_mtl.

(** Every line is indented by four blanks for every bracket around it. *)
Theorem C76_indented_obj : forall ch r p, pretty_obj_result ch r = Some p -> stepped 0 (lines p).
Proof. exact obj_stepped. Qed.
Print Assumptions C76_indented_obj.

Theorem C76_indented_mtl : forall ch r p, pretty_mtl_result ch r = Some p -> stepped 0 (lines p).
Proof. exact mtl_stepped. Qed.
Print Assumptions C76_indented_mtl.

(** A line break stands behind every comma and every bracket that opens something,
    but not in a string, and a comma behind every item. *)
Theorem C76_broken_obj : forall ch r p, pretty_obj_result ch r = Some p -> broken p.
Proof. exact obj_broken. Qed.
Print Assumptions C76_broken_obj.

Theorem C76_broken_mtl : forall ch r p, pretty_mtl_result ch r = Some p -> broken p.
Proof. exact mtl_broken. Qed.
Print Assumptions C76_broken_mtl.

(** There are no other line breaks: none in a string, none before a comma, before a
    closing bracket only if something stands between the brackets. *)
Theorem C76_sparing_obj : forall ch r p, pretty_obj_result ch r = Some p -> sparing p.
Proof. exact obj_sparing. Qed.
Print Assumptions C76_sparing_obj.

Theorem C76_sparing_mtl : forall ch r p, pretty_mtl_result ch r = Some p -> sparing p.
Proof. exact mtl_sparing. Qed.
Print Assumptions C76_sparing_mtl.

(** Texts that are laid out like this and the same without line breaks are the same,
    so nothing else is left to say about the text. *)
Theorem C76_only : forall p p', stepped 0 (lines p) -> broken p -> sparing p -> stepped 0 (lines p') -> broken p' -> sparing p' ->
  unbroken p = unbroken p' -> p = p'.
Proof. exact text_only. Qed.
Print Assumptions C76_only.

Theorem C76_text_obj : forall ch r t, debug_obj_result ch r = Some t ->
  forall p, pretty_obj_result ch r = Some p <-> unbroken p = t /\ stepped 0 (lines p) /\ broken p /\ sparing p.
Proof. exact obj_text. Qed.
Print Assumptions C76_text_obj.

Theorem C76_text_mtl : forall ch r t, debug_mtl_result ch r = Some t ->
  forall p, pretty_mtl_result ch r = Some p <-> unbroken p = t /\ stepped 0 (lines p) /\ broken p /\ sparing p.
Proof. exact mtl_text. Qed.
Print Assumptions C76_text_mtl.

(** The same for what [VTNTriple]s, values that were not parsed and errors show. *)
Theorem C76_triple : forall ch t, unbroken (pretty_vtn_triple ch t) = debug_vtn_triple ch t /\
  stepped 0 (lines (pretty_vtn_triple ch t)) /\ broken (pretty_vtn_triple ch t) /\ sparing (pretty_vtn_triple ch t).
Proof.
  intros ch t. pose proof (represented_triple ch t) as H.
  split; [now apply represented_unbroken|]. split; [eapply represented_stepped; eauto|]. split; [eapply represented_broken; eauto|eapply represented_sparing; eauto].
Qed.
Print Assumptions C76_triple.

Theorem C76_object_set : forall ch s, unbroken (pretty_object_set ch s) = debug_object_set ch s /\
  stepped 0 (lines (pretty_object_set ch s)) /\ broken (pretty_object_set ch s) /\ sparing (pretty_object_set ch s).
Proof.
  intros ch s. pose proof (represented_object_set ch s) as H.
  split; [now apply represented_unbroken|]. split; [eapply represented_stepped; eauto|]. split; [eapply represented_broken; eauto|eapply represented_sparing; eauto].
Qed.
Print Assumptions C76_object_set.

Theorem C76_material_set : forall ch s, unbroken (pretty_material_set ch s) = debug_material_set ch s /\
  stepped 0 (lines (pretty_material_set ch s)) /\ broken (pretty_material_set ch s) /\ sparing (pretty_material_set ch s).
Proof.
  intros ch s. pose proof (represented_material_set ch s) as H.
  split; [now apply represented_unbroken|]. split; [eapply represented_stepped; eauto|]. split; [eapply represented_broken; eauto|eapply represented_sparing; eauto].
Qed.
Print Assumptions C76_material_set.

Theorem C76_obj_error : forall ch e, let p := pretty_parse_error debug_error_kind ch e in
  unbroken p = debug_parse_error debug_error_kind ch e /\ stepped 0 (lines p) /\ broken p /\ sparing p.
Proof.
  intros ch e. pose proof (represented_error ch _ debug_error_kind e represented_kind) as H. cbv zeta.
  split; [now apply represented_unbroken|]. split; [eapply represented_stepped; eauto|]. split; [eapply represented_broken; eauto|eapply represented_sparing; eauto].
Qed.
Print Assumptions C76_obj_error.

Theorem C76_mtl_error : forall ch e, let p := pretty_parse_error debug_mtl_error_kind ch e in
  unbroken p = debug_parse_error debug_mtl_error_kind ch e /\ stepped 0 (lines p) /\ broken p /\ sparing p.
Proof.
  intros ch e. pose proof (represented_error ch _ debug_mtl_error_kind e represented_mtl_kind) as H. cbv zeta.
  split; [now apply represented_unbroken|]. split; [eapply represented_stepped; eauto|]. split; [eapply represented_broken; eauto|eapply represented_sparing; eauto].
Qed.
Print Assumptions C76_mtl_error.

(** Results with the same text are the same. *)
Theorem C76_obj : forall ch dbg dbg' input input' p, fits input -> fits input' ->
  pretty_obj_result ch (ObjModel.parse dbg input) = Some p -> pretty_obj_result ch (ObjModel.parse dbg' input') = Some p ->
  ObjModel.parse dbg input = ObjModel.parse dbg' input'.
Proof. exact obj_pretty_same. Qed.
Print Assumptions C76_obj.

Theorem C76_mtl : forall ch input input' p,
  pretty_mtl_result ch (MtlModel.parse input) = Some p -> pretty_mtl_result ch (MtlModel.parse input') = Some p ->
  MtlModel.parse input = MtlModel.parse input'.
Proof. exact mtl_pretty_same. Qed.
Print Assumptions C76_mtl.

(** * Examples *)

(** A comma and a bracket in a name are not broken behind. *)
Example C76_example :
  pretty_obj_result some_choices (ObjModel.parse true (text "mtllib a,{.mtl|v 1 2 3|usemtl x|g a|p 1")) =
  Some (text ("Ok(|    ObjectSet {|        material_libraries: [|            ""a,{.mtl"",|        ],|        objects: [|" ++
   "            Object {|                name: """",|" ++
   "                vertex_set: [|                    Vertex {|                        x: 1.0,|                        y: 2.0,|" ++
   "                        z: 3.0,|                        w: 1.0,|                    },|                ],|" ++
   "                texture_vertex_set: [],|                normal_vertex_set: [],|" ++
   "                group_set: [|                    Group(|                        ""a"",|                    ),|                ],|" ++
   "                smoothing_group_set: [|                    SmoothingGroup(|                        0,|                    ),|                ],|" ++
   "                element_set: [|                    Point(|                        V(|                            0,|                        ),|                    ),|                ],|" ++
   "                shape_set: [|                    ShapeEntry {|                        element: 0,|                        groups: [|                            0,|                        ],|                        smoothing_group: 0,|                    },|                ],|" ++
   "                geometry_set: [|                    Geometry {|                        material_name: Some(|                            ""x"",|                        ),|                        shapes: [|                            0,|                        ],|                    },|                ],|" ++
   "            },|        ],|    },|)")%string).
Proof. vm_compute. reflexivity. Qed.

Example C76_example_error :
  pretty_obj_result some_choices (ObjModel.parse true (text "v 0 0 0|""\x")) =
  Some (text ("Err(|    ParseError {|        line_number: 2,|        kind: InvalidObjectStatement,|" ++
   "        message: ""Unsupported or invalid object statement `\""`."",|    },|)")%string).
Proof. vm_compute. reflexivity. Qed.

Example C76_example_mtl :
  pretty_mtl_result some_choices (MtlModel.parse (text "newmtl a|Ni 100|map_Ka a.png")) =
  Some (text ("Ok(|    MaterialSet {|        materials: [|            Material {|                name: ""a"",|" ++
   "                color_ambient: Color {|                    r: 0.0,|                    g: 0.0,|                    b: 0.0,|                },|" ++
   "                color_diffuse: Color {|                    r: 0.0,|                    g: 0.0,|                    b: 0.0,|                },|" ++
   "                color_specular: Color {|                    r: 0.0,|                    g: 0.0,|                    b: 0.0,|                },|" ++
   "                color_emissive: Color {|                    r: 0.0,|                    g: 0.0,|                    b: 0.0,|                },|" ++
   "                specular_exponent: 0.0,|                dissolve: 1.0,|                optical_density: Some(|                    100.0,|                ),|" ++
   "                illumination_model: AmbientDiffuseSpecular,|                map_ambient: Some(|                    ""a.png"",|                ),|" ++
   "                map_diffuse: None,|                map_specular: None,|                map_emissive: None,|                map_specular_exponent: None,|" ++
   "                map_bump: None,|                map_displacement: None,|                map_dissolve: None,|                map_decal: None,|" ++
   "            },|        ],|    },|)")%string).
Proof. vm_compute. reflexivity. Qed.

(** There is no text of a call that does not return. *)
Example C76_example_none : pretty_obj_result some_choices (ObjModel.parse true (text "v 0 0 0")) = None /\
  debug_obj_result some_choices (ObjModel.parse true (text "v 0 0 0")) = None.
Proof. split; vm_compute; reflexivity. Qed.

(** On one line the indentation would be right too, but line breaks are missing. *)
Example C76_example_unbroken : stepped 0 (lines (lit "V(1)")) /\ unbroken (lit "V(1)") = lit "V(1)" /\ ~ broken (lit "V(1)").
Proof.
  split; [|split; [reflexivity|]].
  - exists 0, (lit "V(1)"). split; [reflexivity|]. split; [eexists _, _; split; [reflexivity|discriminate]|]. split; reflexivity.
  - intros [H _]. inversion H as [|l ls E _]. discriminate E.
Qed.

(** With a line break between brackets that nothing stands between, only that one is
    too many. *)
Example C76_example_sparing : let p := lit "[" ++ LF :: lit "]" in
  stepped 0 (lines p) /\ broken p /\ unbroken p = unbroken (lit "[]") /\ ~ sparing p.
Proof.
  cbv zeta. split; [|split; [|split; [reflexivity|]]].
  - exists 0, (lit "["). split; [reflexivity|]. split; [eexists _, _; split; [reflexivity|discriminate]|]. split; [reflexivity|].
    exists 0, (lit "]"). split; [reflexivity|]. split; [eexists _, _; split; [reflexivity|discriminate]|]. split; reflexivity.
  - split; repeat constructor.
  - intros [_ [H _]]. discriminate (H eq_refl).
Qed.

Example C76_example_only : stepped 0 (lines (lit "[]")) /\ broken (lit "[]") /\ sparing (lit "[]") /\
  debug_obj_result some_choices (ObjModel.parse true (text "v 1 2 3|p 1")) <> None.
Proof.
  split; [|split; [|split]].
  - exists 0, (lit "[]"). split; [reflexivity|]. split; [eexists _, _; split; [reflexivity|discriminate]|]. split; reflexivity.
  - split; repeat constructor.
  - split; repeat constructor.
  - vm_compute. discriminate.
Qed.
