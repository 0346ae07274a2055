(** Properties of [obj::parse]: C04, C09, C21, C25-C27, C29, C39, C40, C42-C44. *)
From Verif Require Import ObjModel ObjErrorSpec ObjView ObjWriteSpec LexerProofs ObjTop ObjReach ObjUnique ObjFacts ObjMore
  ObjDebug ObjProps ObjWrite ExampleText Demo.
Local Open Scope list_scope.

(** * C04 *)

Theorem C04_debug_overflow_iff : forall input, fits input ->
  parse true input = Panic PanicOverflow <-> exists ts, tokenizes input ts /\ overflows_file ts.
Proof. exact debug_overflow_iff. Qed.
Print Assumptions C04_debug_overflow_iff.

Theorem C04_otherwise_the_same : forall input, fits input -> parse true input <> Panic PanicOverflow ->
  parse true input = parse false input.
Proof. exact debug_otherwise. Qed.
Print Assumptions C04_otherwise_the_same.

(** So the characterizations of C03, C24 and C30 for debug builds are: *)
Theorem C04_debug_ok_iff : forall input set, fits input ->
  parse true input = Ok set <->
  (exists f, says input f /\ Forall drawable (file_objects f) /\ set = file_means f) /\
  forall ts, tokenizes input ts -> ~ overflows_file ts.
Proof. exact debug_ok_iff. Qed.
Print Assumptions C04_debug_ok_iff.

Theorem C04_debug_error_iff : forall input e, fits input ->
  parse true input = Err e <->
  (exists x y z tx ty tz, input = x ++ y ++ z /\
    tokenizes x tx /\ tokenizes y ty /\ tokenizes z tz /\ tokenizes input (tx ++ ty ++ tz) /\
    fails_at (tx ++ ty ++ tz) (ty ++ tz) (err_kind e, err_message e) tz /\
    err_line_number e = line_after (x ++ y)) /\
  forall ts, tokenizes input ts -> ~ overflows_file ts.
Proof. exact debug_err_iff. Qed.
Print Assumptions C04_debug_error_iff.

Theorem C04_debug_panic_iff : forall input x, fits input ->
  parse true input = Panic x <->
  (x = PanicOverflow /\ exists ts, tokenizes input ts /\ overflows_file ts) \/
  (x = PanicIndex /\
   (exists ts done o rest, tokenizes input ts /\ reaches ts done (Some o) rest /\ at_object_end rest /\ ~ drawable o) /\
   forall ts, tokenizes input ts -> ~ overflows_file ts).
Proof. exact debug_panic_iff. Qed.
Print Assumptions C04_debug_panic_iff.

Theorem C04_no_assertion_fails : forall dbg input, fits input -> parse dbg input <> Panic PanicAssert.
Proof. exact no_assert. Qed.
Print Assumptions C04_no_assertion_fails.

(** The last reference is swallowed by a release build. *)
Example C04_example :
  (exists set, parse false (text "v 0 0 0|v 1 0 0|v 0 1 0|f 1 2 3 -9223372036854775806|") = Ok set) /\
  parse true (text "v 0 0 0|v 1 0 0|v 0 1 0|f 1 2 3 -9223372036854775806|") = Panic PanicOverflow /\
  parse true (text "v 0 0 0|v 1 0 0|v 0 1 0|f 1 2 3 -9223372036854775804|") =
  parse false (text "v 0 0 0|v 1 0 0|v 0 1 0|f 1 2 3 -9223372036854775804|").
Proof. split; [eexists|split]; vm_compute; reflexivity. Qed.

(** * C09 *)

Theorem C09_obj_blank_lines : forall dbg x y set, fits (x ++ LF :: LF :: y) ->
  parse dbg (x ++ LF :: y) = Ok set -> parse dbg (x ++ LF :: LF :: y) = Ok set.
Proof. exact blank_line. Qed.
Print Assumptions C09_obj_blank_lines.

Example C09_obj_example : exists set,
  parse true (text "mtllib a|v 0 0 0|g x y" ++ LF :: text "usemtl m|p 1|o b|v 1 1 1|p 2") = Ok set /\
  parse true (text "mtllib a|v 0 0 0|g x y" ++ LF :: LF :: text "usemtl m|p 1|o b|v 1 1 1|p 2") = Ok set /\
  objects set <> [].
Proof. eexists. split; [vm_compute; reflexivity|]. split; [vm_compute; reflexivity|discriminate]. Qed.

(** * C21 *)

Theorem C21_names_in_order : forall dbg input set, fits input -> parse dbg input = Ok set ->
  forall f, says input f -> map name (objects set) = map fst (file_objects f).
Proof. exact parsed_names. Qed.
Print Assumptions C21_names_in_order.

Theorem C21_later_objects : forall dbg x y set set', fits (x ++ LF :: y) ->
  parse dbg x = Ok set -> (exists rest, tokenizes y (lit "o" :: rest)) -> parse dbg (x ++ LF :: y) = Ok set' ->
  material_libraries set' = material_libraries set /\ exists more, objects set' = objects set ++ more.
Proof. exact appended. Qed.
Print Assumptions C21_later_objects.

Example C21_example : exists set set' more,
  parse true demo = Ok set /\ parse true (demo ++ LF :: text "o third|v 1 2 3|p 7|o fourth|usemtl x") = Ok set' /\
  objects set' = objects set ++ more /\ map name more = [lit "third"; lit "fourth"].
Proof.
  eexists _, _, _. split; [vm_compute; reflexivity|]. split; [vm_compute; reflexivity|].
  split; [cbn; unfold app; reflexivity|reflexivity].
Qed.

(** * C25 *)

(** With one vertex, [p -1] should be that vertex. *)
Theorem C25_negative_indices_refuted :
  ~ (forall x, fits (text "v 0 0 0|" ++ x) -> tokenizes x [lit "p"; lit "-1"] ->
       exists set, parse false (text "v 0 0 0|" ++ x) = Ok set).
Proof.
  intros H. destruct (H (lit "p -1")) as [set E].
  - vm_compute. discriminate.
  - apply tokenizes_iff. vm_compute. reflexivity.
  - vm_compute in E. discriminate.
Qed.
Print Assumptions C25_negative_indices_refuted.

(** An index that is not positive is never accepted where an index is required. *)
Theorem C25_points : forall input ts done n ss toks t rest, fits input -> tokenizes input ts -> forall ks,
  reaches ts done (Some (n, ss)) (lit "p" :: toks ++ t :: rest) ->
  Forall2 (point_token (counts_in done []) (counts_in done ss)) toks ks -> not_positive t ->
  exists e, parse false input = Err e /\ err_kind e = VTNIndexOutOfRange.
Proof. exact nonpositive_point. Qed.
Print Assumptions C25_points.

Theorem C25_lines : forall input ts done n ss toks t rest, fits input -> tokenizes input ts -> forall rs,
  reaches ts done (Some (n, ss)) (lit "l" :: toks ++ t :: rest) ->
  Forall2 (valid_ref (counts_in done []) (counts_in done ss)) toks rs -> length rs < 2 -> ref_not_positive t ->
  exists e, parse false input = Err e.
Proof. exact nonpositive_line. Qed.
Print Assumptions C25_lines.

Theorem C25_faces : forall input ts done n ss toks t rest, fits input -> tokenizes input ts -> forall rs,
  reaches ts done (Some (n, ss)) (lit "f" :: toks ++ t :: rest) ->
  Forall2 (valid_ref (counts_in done []) (counts_in done ss)) toks rs -> length rs < 3 -> ref_not_positive t ->
  exists e, parse false input = Err e /\ err_kind e = EveryFaceElementMustHaveAtLeastThreeVertices.
Proof. exact nonpositive_face. Qed.
Print Assumptions C25_faces.

(** And it stands for nothing. *)
Theorem C25_no_reference : forall base now t r, ref_not_positive t -> ~ valid_ref base now t r.
Proof. exact not_positive_ref. Qed.
Print Assumptions C25_no_reference.

Example C25_example :
  (exists e, parse false (text "v 0 0 0|p 1|p 1 -1 1|") = Err e /\ err_kind e = VTNIndexOutOfRange) /\
  (exists e, parse false (text "v 0 0 0|v 0 0 1|l 1 -1|") = Err e /\ err_kind e = VTNIndexOutOfRange) /\
  (exists e, parse false (text "v 0 0 0|v 0 0 1|v 0 1 0|f 1/1 2 -1|") = Err e /\
     err_kind e = EveryFaceElementMustHaveAtLeastThreeVertices) /\
  (exists e, parse false (text "v 0 0 0|p 0|") = Err e /\ err_kind e = VTNIndexOutOfRange).
Proof. repeat split; (eexists; split; vm_compute; reflexivity). Qed.

(** * C26 *)

(** A fourth corner should add a second triangle or make the file wrong. *)
Theorem C26_all_references_kept_refuted :
  ~ (forall extra set, tokenizes extra [extra] -> fits (text "v 0 0 0|v 1 0 0|v 0 1 0|f 1 2 3 " ++ extra) ->
       parse false (text "v 0 0 0|v 1 0 0|v 0 1 0|f 1 2 3 " ++ extra) = Ok set -> extra <> nl ->
       exists ob, objects set = [ob] /\ length (element_set ob) = 2).
Proof.
  intros H. destruct (H (lit "9") (file_means (mkObjFile [] [([],
     [SVertex (mkVertex (num "0") (num "0") (num "0") (num "1")); SVertex (mkVertex (num "1") (num "0") (num "0") (num "1"));
      SVertex (mkVertex (num "0") (num "1") (num "0") (num "1"));
      SFace [mkRef 1 None None; mkRef 2 None None; mkRef 3 None None]])]))) as (ob & E & K).
  - apply tokenizes_iff. vm_compute. reflexivity.
  - vm_compute. discriminate.
  - vm_compute. reflexivity.
  - discriminate.
  - cbn [objects file_means objects_of file_objects] in E. inversion E; subst. vm_compute in K. discriminate.
Qed.
Print Assumptions C26_all_references_kept_refuted.

(** The references in front of the first token that is none are kept. *)
Theorem C26_references_kept : forall dbg input ts set done n ss k toks rs stop s,
  fits input -> tokenizes input ts -> parse dbg input = Ok set ->
  reaches ts done (Some (n, ss)) (k :: toks ++ stop) ->
  (k = lit "f" /\ s = SFace rs) \/ (k = lit "l" /\ s = SLine rs) ->
  Forall2 (valid_ref (counts_in done []) (counts_in done ss)) toks rs ->
  match stop with [] => True | t :: _ => forall r, ~ valid_ref (counts_in done []) (counts_in done ss) t r end ->
  exists ob front back, nth_error (objects set) (length done) = Some ob /\
    element_set ob = front ++ elements_of (counts_in done []) s ++ back /\
    length front = length (flat_map written ss).
Proof. exact kept. Qed.
Print Assumptions C26_references_kept.

Example C26_example : exists set ob,
  parse true (text "v 0 0 0|v 1 0 0|v 0 1 0|f 1 2 3 x|p 1|f 1 2 3 1 2|") = Ok set /\ objects set = [ob] /\
  element_set ob = [Face (V 0) (V 1) (V 2); Point (V 0); Face (V 0) (V 1) (V 2); Face (V 0) (V 2) (V 0); Face (V 0) (V 0) (V 1)].
Proof. eexists _, _. vm_compute. repeat split; reflexivity. Qed.

(** * C27 *)

Theorem C27_crlf_refuted :
  ~ (forall x set, fits (crlf x) -> parse false x = Ok set -> parse false (crlf x) = Ok set).
Proof.
  intros H. specialize (H (text "v 0 0 0|p 1|")).
  specialize (H (file_means (mkObjFile [] [([], [SVertex (mkVertex (num "0") (num "0") (num "0") (num "1")); SPoint [1]])]))).
  assert (K := H ltac:(vm_compute; discriminate) ltac:(vm_compute; reflexivity)). vm_compute in K. discriminate.
Qed.
Print Assumptions C27_crlf_refuted.

(** A carriage return where a statement should start is an invalid statement. *)
Theorem C27_carriage_return : forall input before after ts rest done o, fits input ->
  input = before ++ after -> tokenizes before ts -> tokenizes after ([CR] :: rest) -> tokenizes input (ts ++ [CR] :: rest) ->
  reaches (ts ++ [CR] :: rest) done (Some o) ([CR] :: rest) ->
  parse false input = Err (mkParseError (line_after before) InvalidObjectStatement (msg_statement [CR])).
Proof. exact carriage_return. Qed.
Print Assumptions C27_carriage_return.

Example C27_example :
  parse false (crlf (text "v 0 0 0|p 1|")) = Err (mkParseError 1 InvalidObjectStatement (msg_statement [CR])) /\
  (exists set, parse false (crlf (text "g a|p 1|")) = Err set) /\
  (exists set ob, parse false (text "v 0 0 0|g a" ++ CR :: text "|p 1|") = Ok set /\ objects set = [ob] /\ group_set ob = [lit "a"; [CR]]).
Proof.
  split; [vm_compute; reflexivity|]. split; [eexists; vm_compute; reflexivity|].
  eexists _, _. vm_compute. repeat split; reflexivity.
Qed.

(** * C29 *)

Theorem C29_read_back : forall dbg f ts input, fits input -> well_formed f -> writes_file f ts -> tokenizes input ts ->
  parse dbg input = Ok (file_means f).
Proof. exact written_parses. Qed.
Print Assumptions C29_read_back.

Example C29_example :
  let f := mkObjFile [lit "a.mtl"] [([], [SVertex (mkVertex (num "0") (num "0") (num "0.5") (num "1")); SPoint [1; 1]]);
     (lit "b", [SGroup [lit "left"]; SUse (lit "red"); SVertex (mkVertex (num "1") (num "1") (num "1") (num "2"));
                SLine [mkRef 2 None None; mkRef 2 None None]])] in
  well_formed f /\
  writes_file f ([lit "mtllib"; lit "a.mtl"; nl] ++
     ([lit "v"; lit "0"; lit "0.0"; lit "5e-1"] ++ nl :: nl :: [lit "p"; lit "+1"; lit "01"] ++ [nl]) ++
     [lit "o"; lit "b"; nl] ++ ([lit "g"; lit "left"] ++ nl :: [lit "usemtl"; lit "red"] ++ nl ::
     [lit "v"; lit "1"; lit "1"; lit "1"; lit "2"] ++ nl :: [lit "l"; lit "2"; lit "2/"]) ++ []) /\
  tokenizes (text "mtllib a.mtl # libraries|  v 0 0.0 5e-1||p +1 01|o b|g left|usemtl red|v 1 1 1 2|l 2 2/")
    ([lit "mtllib"; lit "a.mtl"; nl] ++
     ([lit "v"; lit "0"; lit "0.0"; lit "5e-1"] ++ nl :: nl :: [lit "p"; lit "+1"; lit "01"] ++ [nl]) ++
     [lit "o"; lit "b"; nl] ++ ([lit "g"; lit "left"] ++ nl :: [lit "usemtl"; lit "red"] ++ nl ::
     [lit "v"; lit "1"; lit "1"; lit "1"; lit "2"] ++ nl :: [lit "l"; lit "2"; lit "2/"]) ++ []).
Proof.
  cbv zeta. split; [|split].
  - split.
    + repeat split; cbn; try lia; try discriminate; repeat constructor; cbn; try lia.
      intros r1 r2 [<-|[<-|[]]] [<-|[<-|[]]]; reflexivity.
    + repeat constructor; cbn; [exists (SPoint [1; 1])|exists (SUse (lit "red"))]; cbn; eauto 10.
  - eapply (writes_unnamed _ _ _ [lit "mtllib"; lit "a.mtl"; nl]).
    + apply (writes_libraries_line [lit "a.mtl"] [] []); [intros [K|[]]; discriminate|constructor].
    + apply (writes_body_line _ _ [lit "v"; lit "0"; lit "0.0"; lit "5e-1"]).
      * replace (num "1") with f64_one by (vm_compute; reflexivity). apply writes_v3; vm_compute; reflexivity.
      * apply writes_body_blank. apply (writes_body_line _ _ [lit "p"; lit "+1"; lit "01"]); [|constructor].
        apply writes_p. repeat constructor; vm_compute; reflexivity.
    + apply (writes_objects_more (lit "b") _ ([lit "g"; lit "left"] ++ nl :: [lit "usemtl"; lit "red"] ++ nl ::
        [lit "v"; lit "1"; lit "1"; lit "1"; lit "2"] ++ nl :: [lit "l"; lit "2"; lit "2/"]) [] []); [|constructor].
      apply (writes_body_line _ _ [lit "g"; lit "left"]); [apply writes_g; intros [K|[]]; discriminate|].
      apply (writes_body_line _ _ [lit "usemtl"; lit "red"]); [apply writes_usemtl|].
      apply (writes_body_line _ _ [lit "v"; lit "1"; lit "1"; lit "1"; lit "2"]); [apply writes_v4; vm_compute; reflexivity|].
      apply writes_body_last; [reflexivity|]. apply writes_l.
      constructor; [apply ref_1; vm_compute; reflexivity|]. constructor; [|constructor].
      apply (ref_2 (lit "2") [] 2 None); [vm_compute; reflexivity|constructor].
  - apply tokenizes_iff. vm_compute. reflexivity.
Qed.

(** * C39 *)

(** [proper_name input t]: a non-empty slice of the input without spaces, tabs,
    backslashes and [#]. *)
Theorem C39_library_names : forall dbg input set, fits input -> parse dbg input = Ok set ->
  forall t, In t (material_libraries set) -> proper_name input t /\ t <> nl.
Proof. exact library_names. Qed.
Print Assumptions C39_library_names.

Theorem C39_object_names : forall dbg input set, fits input -> parse dbg input = Ok set ->
  forall i ob, nth_error (objects set) i = Some ob -> proper_name input (name ob) \/ (i = 0 /\ name ob = []).
Proof. exact object_names. Qed.
Print Assumptions C39_object_names.

Theorem C39_group_names : forall dbg input set, fits input -> parse dbg input = Ok set ->
  forall ob t, In ob (objects set) -> In t (group_set ob) -> (proper_name input t \/ t = lit "default") /\ t <> nl.
Proof. exact group_names. Qed.
Print Assumptions C39_group_names.

Theorem C39_material_names : forall dbg input set, fits input -> parse dbg input = Ok set ->
  forall ob g m, In ob (objects set) -> In g (geometry_set ob) -> material_name g = Some m -> proper_name input m.
Proof. exact material_names. Qed.
Print Assumptions C39_material_names.

Example C39_example : exists set ob,
  parse true (text "mtllib m/a.mtl#x|o ob.1|v 0 0 0|g a_b c|usemtl Red;|p 1|") = Ok set /\ objects set = [ob] /\
  material_libraries set = [lit "m/a.mtl"] /\ name ob = lit "ob.1" /\ group_set ob = [lit "a_b"; lit "c"] /\
  geometry_set ob = [mkGeometry (Some (lit "Red;")) [0]].
Proof. eexists _, _. vm_compute. repeat split; reflexivity. Qed.

(** * C40 *)

Theorem C40_second_parse_objset : forall dbg input set p, fits input ->
  parse_objset dbg (fuel_for input) (parser_new input) = (Ok set, p) ->
  fst (parse_objset dbg (fuel_for input) p) = Ok (mkObjectSet [] []).
Proof. exact second_call. Qed.
Print Assumptions C40_second_parse_objset.

Example C40_obj_example : exists set p,
  parse_objset true (fuel_for demo) (parser_new demo) = (Ok set, p) /\ objects set <> [] /\ line_number p = 21.
Proof. eexists _, _. split; [vm_compute; reflexivity|]. split; [discriminate|reflexivity]. Qed.

(** * C42 *)

Theorem C42_sizes : forall dbg input set, fits input -> parse dbg input = Ok set ->
  length (material_libraries set) <= length input /\
  length (objects set) <= length input /\
  sum_over set (fun ob => length (vertex_set ob)) <= length input /\
  sum_over set (fun ob => length (texture_vertex_set ob)) <= length input /\
  sum_over set (fun ob => length (normal_vertex_set ob)) <= length input /\
  sum_over set (fun ob => length (group_set ob)) <= length input /\
  sum_over set (fun ob => length (smoothing_group_set ob)) <= length input /\
  sum_over set (fun ob => length (element_set ob)) <= length input /\
  sum_over set (fun ob => length (shape_set ob)) <= length input /\
  sum_over set (fun ob => length (geometry_set ob)) <= length input.
Proof. exact all_sizes. Qed.
Print Assumptions C42_sizes.

Example C42_example : exists set,
  parse true demo = Ok set /\ sum_over set (fun ob => length (element_set ob)) = 6 /\
  sum_over set (fun ob => length (vertex_set ob)) = 6.
Proof. eexists. split; [vm_compute; reflexivity|]. split; reflexivity. Qed.

(** * C43 *)

Theorem C43_names_are_not_newlines_refuted :
  ~ (forall input set ob g, fits input -> parse false input = Ok set -> In ob (objects set) ->
       In g (geometry_set ob) -> material_name g <> Some nl).
Proof.
  intros H.
  apply (H (text "v 0 0 0|usemtl|p 1|")
    (file_means (mkObjFile [] [([], [SVertex (mkVertex (num "0") (num "0") (num "0") (num "1")); SUse nl; SPoint [1]])]))
    (object_of no_counts [] [SVertex (mkVertex (num "0") (num "0") (num "0") (num "1")); SUse nl; SPoint [1]])
    (mkGeometry (Some nl) [0])); try (vm_compute; first [discriminate|reflexivity]).
  - now left.
  - vm_compute. now left.
Qed.
Print Assumptions C43_names_are_not_newlines_refuted.

(** Group and library names never are: C39_group_names, C39_library_names. *)
Theorem C43_group_and_library_names : forall dbg input set, fits input -> parse dbg input = Ok set ->
  ~ In nl (material_libraries set) /\ forall ob, In ob (objects set) -> ~ In nl (group_set ob).
Proof.
  exact (fun dbg input set Hf Hok => conj (fun H => proj2 (library_names dbg input set Hf Hok nl H) eq_refl)
    (fun ob Hob H => proj2 (group_names dbg input set Hf Hok ob nl Hob H) eq_refl)).
Qed.
Print Assumptions C43_group_and_library_names.

Example C43_example : exists set ob,
  parse true (text "mtllib|v 0 0 0|g|p 1|") = Ok set /\ objects set = [ob] /\ material_libraries set = [] /\
  group_set ob = [lit "default"].
Proof. eexists _, _. vm_compute. repeat split; reflexivity. Qed.

(** * C44 *)

Theorem C44_every_element_in_a_group_refuted :
  ~ (forall input set ob se, fits input -> parse false input = Ok set -> In ob (objects set) ->
       In se (shape_set ob) -> se_groups se <> []).
Proof.
  intros H.
  apply (H (text "v 0 0 0|g a|g|p 1|")
    (file_means (mkObjFile [] [([], [SVertex (mkVertex (num "0") (num "0") (num "0") (num "1")); SGroup [lit "a"]; SGroup []; SPoint [1]])]))
    (object_of no_counts [] [SVertex (mkVertex (num "0") (num "0") (num "0") (num "1")); SGroup [lit "a"]; SGroup []; SPoint [1]])
    (mkShapeEntry 0 [] 0)); try (vm_compute; first [discriminate|reflexivity]).
  - now left.
  - vm_compute. now left.
Qed.
Print Assumptions C44_every_element_in_a_group_refuted.

Theorem C44_if_every_g_has_a_name : forall dbg input set, fits input -> parse dbg input = Ok set ->
  forall f, says input f -> forall i ob n ss,
  nth_error (objects set) i = Some ob -> nth_error (file_objects f) i = Some (n, ss) ->
  (forall names, In (SGroup names) ss -> names <> []) ->
  forall se, In se (shape_set ob) -> se_groups se <> [].
Proof. exact grouped. Qed.
Print Assumptions C44_if_every_g_has_a_name.

Example C44_example : exists set a b,
  parse true demo = Ok set /\ objects set = [a; b] /\
  (forall names, In (SGroup names) demo_second -> names <> []) /\
  map se_groups (shape_set b) = [[0]; [0]; [1]; [1]].
Proof.
  eexists _, _, _. split; [vm_compute; reflexivity|]. split; [reflexivity|]. split; [|vm_compute; reflexivity].
  intros names H. cbn in H. repeat destruct H as [H|H]; try discriminate; try (inversion H; subst; discriminate).
Qed.
