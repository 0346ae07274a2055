(** Properties of [obj::parse]: C03, C10, C12-C20, C22-C24, C30.

    [fits input] holds of every Rust string: its length is at most [isize::MAX].
    [says input f] is the reading of a text (ObjSpec.v, ObjView.v); C30 says that
    a text that parses has exactly one. *)
From Verif Require Import ObjModel ObjErrorSpec ObjView LexerProofs ObjTop ObjReach ObjUnique ObjFacts ObjMore ObjPlaces ExampleText Demo.
Local Open Scope list_scope.

(** * C30 *)

Theorem C30_parse_ok_iff : forall input set, fits input ->
  parse false input = Ok set <->
  exists f, says input f /\ Forall drawable (file_objects f) /\ set = file_means f.
Proof. exact parse_says_iff. Qed.
Print Assumptions C30_parse_ok_iff.

(** The grammar is unambiguous. *)
Theorem C30_one_reading : forall input f f', says input f -> says input f' -> f = f'.
Proof. exact says_unique. Qed.
Print Assumptions C30_one_reading.

(** A debug build returns nothing else. *)
Theorem C30_debug_ok : forall dbg input set, fits input -> parse dbg input = Ok set ->
  exists f, says input f /\ Forall drawable (file_objects f) /\ set = file_means f.
Proof. exact parsed_said. Qed.
Print Assumptions C30_debug_ok.

Example C30_example :
  fits demo /\ says demo demo_file /\ Forall drawable (file_objects demo_file) /\
  parse false demo = Ok (file_means demo_file).
Proof.
  split; [exact demo_fits|]. split; [exact demo_says|]. split; [|vm_compute; reflexivity].
  repeat constructor; cbn; [exists (SUse (lit "red"))|exists (SUse (lit "blue"))]; cbn; eauto 20.
Qed.

(** * C03 *)

Theorem C03_release_panic_iff : forall input x, fits input ->
  parse false input = Panic x <->
  x = PanicIndex /\
  exists ts done o rest, tokenizes input ts /\ reaches ts done (Some o) rest /\ at_object_end rest /\ ~ drawable o.
Proof. exact panic_place. Qed.
Print Assumptions C03_release_panic_iff.

Theorem C03_never_panics_refuted : ~ (forall input, fits input -> forall x, parse false input <> Panic x).
Proof.
  intros H. apply (H (text "v 0 0 0")) with (x := PanicIndex); vm_compute; [discriminate|reflexivity].
Qed.
Print Assumptions C03_never_panics_refuted.

Example C03_example :
  parse false (text "v 0 0 0|p 1|o second|v 1 1 1|o third|v 2 2 2|p 3|") = Panic PanicIndex /\
  (exists set, parse false (text "v 0 0 0|p 1|o second|v 1 1 1|usemtl m|o third|v 2 2 2|p 3|") = Ok set).
Proof. split; [|eexists]; vm_compute; reflexivity. Qed.

(** * C10 *)

Theorem C10_vertex_data : forall dbg input set, fits input -> parse dbg input = Ok set ->
  forall f, says input f -> forall i ob n ss,
  nth_error (objects set) i = Some ob -> nth_error (file_objects f) i = Some (n, ss) ->
  vertex_set ob = all_vertices ss /\ texture_vertex_set ob = all_texture_vertices ss /\
  normal_vertex_set ob = all_normals ss.
Proof. exact nth_data. Qed.
Print Assumptions C10_vertex_data.

Theorem C10_all_objects : forall dbg input set, fits input -> parse dbg input = Ok set ->
  forall f, says input f -> length (objects set) = length (file_objects f).
Proof. exact parsed_count. Qed.
Print Assumptions C10_all_objects.

(** A [v] statement anywhere in the text, after the objects [done] and the
    statements [before] of the current object: where its numbers go.  [w] is 1 if
    there is no fourth number. *)
Theorem C10_vertex_text : forall dbg input set, fits input -> parse dbg input = Ok set ->
  forall ts, tokenizes input ts -> forall done n before a b c rest,
  reaches ts done (Some (n, before)) (lit "v" :: a :: b :: c :: rest) ->
  exists ob x y z w, nth_error (objects set) (length done) = Some ob /\
    float_token a x /\ float_token b y /\ float_token c z /\ next_number f64_one rest w /\
    nth_error (vertex_set ob) (length (all_vertices before)) = Some (mkVertex x y z w).
Proof. exact vertex_place. Qed.
Print Assumptions C10_vertex_text.

(** For [vt], [v] and [w] are 0 if they are missing. *)
Theorem C10_texture_vertex_text : forall dbg input set, fits input -> parse dbg input = Ok set ->
  forall ts, tokenizes input ts -> forall done n before a rest,
  reaches ts done (Some (n, before)) (lit "vt" :: a :: rest) ->
  exists ob u v w, nth_error (objects set) (length done) = Some ob /\ float_token a u /\
    match rest with
    | b :: rest' =>
        match RustStd.parse_f64 b with
        | Some x => v = x /\ next_number f64_zero rest' w
        | None => v = f64_zero /\ w = f64_zero
        end
    | [] => v = f64_zero /\ w = f64_zero
    end /\
    nth_error (texture_vertex_set ob) (length (all_texture_vertices before)) = Some (mkTextureVertex u v w).
Proof. exact texture_place. Qed.
Print Assumptions C10_texture_vertex_text.

Theorem C10_normal_text : forall dbg input set, fits input -> parse dbg input = Ok set ->
  forall ts, tokenizes input ts -> forall done n before a b c rest,
  reaches ts done (Some (n, before)) (lit "vn" :: a :: b :: c :: rest) ->
  exists ob x y z, nth_error (objects set) (length done) = Some ob /\
    float_token a x /\ float_token b y /\ float_token c z /\
    nth_error (normal_vertex_set ob) (length (all_normals before)) = Some (mkNormalVertex x y z).
Proof. exact normal_place. Qed.
Print Assumptions C10_normal_text.

Example C10_example : exists set a b,
  parse false demo = Ok set /\ objects set = [a; b] /\
  vertex_set a = [mkVertex (num "0") (num "0") (num "0") (num "1"); mkVertex (num "1") (num "0") (num "0") (num "2");
                  mkVertex (num "1") (num "1") (num "0") (num "1"); mkVertex (num "0") (num "1") (num "0") (num "1")] /\
  texture_vertex_set a = [mkTextureVertex (num "0.5") (num "0") (num "0")] /\
  normal_vertex_set a = [mkNormalVertex (num "0") (num "0") (num "1")] /\
  normal_vertex_set b = [].
Proof. eexists _, _, _. vm_compute. repeat split; reflexivity. Qed.

(** The hypotheses of the three theorems above, and of C15_text. *)
Example C10_text_example :
  let input := text "vt 0.5|v 1 2 3|v 4 5 6 7|p 2|" in
  fits input /\ (exists set, parse true input = Ok set) /\ tokenizes input (lex input) /\
  reaches (lex input) [] (Some ([], [STexture (mkTextureVertex (num "0.5") f64_zero f64_zero)]))
    (lit "v" :: lit "1" :: lit "2" :: lit "3" :: nl :: lit "v" :: skipn 9 (lex input)) /\
  next_number f64_one [nl] (num "1") /\ next_number f64_one [lit "7"; nl] (num "7").
Proof.
  cbv zeta. split; [vm_compute; discriminate|]. split; [eexists; vm_compute; reflexivity|].
  split; [apply lex_tokenizes|]. split; [|split; vm_compute; reflexivity].
  let ts := eval vm_compute in (lex (text "vt 0.5|v 1 2 3|v 4 5 6 7|p 2|")) in
    change (lex (text "vt 0.5|v 1 2 3|v 4 5 6 7|p 2|")) with ts.
  cbn [skipn]. apply reaches_blank.
  match goal with |- reaches ?ts _ (Some (?n, [?s])) ?r => apply (reaches_statement ts [] n [] s ts r) end.
  - apply reaches_unnamed; [|discriminate]. apply (reaches_start _ []). read_libraries.
  - read_statement.
Qed.

(** * C12 *)

(** The elements, each corner replaced by what [get_vtn_triple] gives for it, are
    the elements written in the file, each corner replaced by what the file's
    numbering gives for it. *)
Theorem C12_indices_denote : forall dbg input set, fits input -> parse dbg input = Ok set ->
  forall f, says input f -> forall i ob n ss,
  nth_error (objects set) i = Some ob -> nth_error (file_objects f) i = Some (n, ss) ->
  map (fun e => draw_map (get_vtn_triple ob) (draw_element e)) (element_set ob) =
  map (draw_map (lookup f)) (flat_map written ss) /\
  (forall d r, In d (flat_map written ss) -> In r (corners d) -> lookup f r <> None).
Proof. exact nth_resolved. Qed.
Print Assumptions C12_indices_denote.

Example C12_example : exists set a b,
  parse false demo = Ok set /\ objects set = [a; b] /\
  element_set b = [Point (V 0); Point (V 1); Line (V 0) (V 1); Line (V 1) (V 0)] /\
  lookup demo_file (mkRef 6 None None) = Some (TripleV (mkVertex (num "6") (num "6") (num "6") (num "1"))) /\
  get_vtn_triple b (V 1) = lookup demo_file (mkRef 6 None None).
Proof. eexists _, _, _. vm_compute. repeat split; reflexivity. Qed.

(** * C13 *)

Theorem C13_indices_resolve : forall dbg input set ob e c, fits input -> parse dbg input = Ok set -> In ob (objects set) ->
  In e (element_set ob) -> In c (corners (draw_element e)) -> get_vtn_triple ob c <> None.
Proof. exact object_resolves. Qed.
Print Assumptions C13_indices_resolve.

Example C13_example : exists set a b,
  parse false demo = Ok set /\ objects set = [a; b] /\
  In (Face (VN 0 0) (VN 2 0) (VN 3 0)) (element_set a) /\ get_vtn_triple a (VN 3 0) <> None /\ get_vtn_triple b (VN 0 0) = None.
Proof.
  eexists _, _, _. split; [vm_compute; reflexivity|]. split; [reflexivity|].
  split; [vm_compute; auto|]. split; [vm_compute; discriminate|vm_compute; reflexivity].
Qed.

(** * C14 *)

Theorem C14_same_form : forall dbg input set ob e, fits input -> parse dbg input = Ok set -> In ob (objects set) ->
  In e (element_set ob) ->
  (forall a b, In a (corners (draw_element e)) -> In b (corners (draw_element e)) -> index_form a = index_form b) /\
  (forall a, e = Point a -> exists k, a = V k).
Proof. exact object_forms. Qed.
Print Assumptions C14_same_form.

Example C14_example :
  (exists set, parse false (text "v 0 0 0|v 1 0 0|v 0 1 0|vn 0 0 1|f 1//1 2//1 3//1|") = Ok set) /\
  (exists e, parse false (text "v 0 0 0|v 1 0 0|v 0 1 0|vn 0 0 1|f 1//1 2 3//1|") = Err e /\
     err_kind e = EveryVTNIndexMustHaveTheSameFormForAGivenElement).
Proof. split; eexists; [|split]; vm_compute; reflexivity. Qed.

(** * C15 and C16 *)

(** The elements of a statement stand together, after those of the statements
    before it. *)
Theorem C15_C16_in_order : forall dbg input set, fits input -> parse dbg input = Ok set ->
  forall f, says input f -> forall i ob n ss,
  nth_error (objects set) i = Some ob -> nth_error (file_objects f) i = Some (n, ss) ->
  forall before s after, ss = before ++ s :: after ->
  exists front back, element_set ob = front ++ elements_of (base_of f i) s ++ back /\
    length front = length (flat_map written before).
Proof. exact nth_elements. Qed.
Print Assumptions C15_C16_in_order.

Theorem C15_fan : forall dbg input set, fits input -> parse dbg input = Ok set ->
  forall f, says input f -> forall i ob n ss,
  nth_error (objects set) i = Some ob -> nth_error (file_objects f) i = Some (n, ss) ->
  forall before rs after, ss = before ++ SFace rs :: after ->
  let r j := local_ref (base_of f i) (nth_ref rs j) in
  exists front back,
    element_set ob = front ++ map (fun j => Face (r 0) (r (j + 1)) (r (j + 2))) (seq 0 (length rs - 2)) ++ back /\
    length front = length (flat_map written before).
Proof. exact nth_faces. Qed.
Print Assumptions C15_fan.

Theorem C16_polyline : forall dbg input set, fits input -> parse dbg input = Ok set ->
  forall f, says input f -> forall i ob n ss,
  nth_error (objects set) i = Some ob -> nth_error (file_objects f) i = Some (n, ss) ->
  forall before rs after, ss = before ++ SLine rs :: after ->
  let r j := local_ref (base_of f i) (nth_ref rs j) in
  exists front back,
    element_set ob = front ++ map (fun j => Line (r j) (r (j + 1))) (seq 0 (length rs - 1)) ++ back /\
    length front = length (flat_map written before).
Proof. exact nth_lines. Qed.
Print Assumptions C16_polyline.

Theorem C16_points : forall dbg input set, fits input -> parse dbg input = Ok set ->
  forall f, says input f -> forall i ob n ss,
  nth_error (objects set) i = Some ob -> nth_error (file_objects f) i = Some (n, ss) ->
  forall before ks after, ss = before ++ SPoint ks :: after ->
  exists front back,
    element_set ob = front ++ map (fun k => Point (V (k - 1 - n_v (base_of f i)))) ks ++ back /\
    length front = length (flat_map written before).
Proof. exact nth_points. Qed.
Print Assumptions C16_points.

(** Every element statement contributes something: at least one point, line or
    triangle. *)
Theorem C15_C16_counts : forall dbg input set, fits input -> parse dbg input = Ok set ->
  forall f, says input f -> forall i ob n ss,
  nth_error (objects set) i = Some ob -> nth_error (file_objects f) i = Some (n, ss) ->
  forall before s after, ss = before ++ s :: after -> is_element s = true ->
  exists front es back, element_set ob = front ++ es ++ back /\
    length front = length (flat_map written before) /\ es <> [] /\
    length es = match s with
                | SFace rs => length rs - 2
                | SLine rs => length rs - 1
                | SPoint ks => length ks
                | _ => 0
                end.
Proof. exact nth_amount. Qed.
Print Assumptions C15_C16_counts.

(** A face statement anywhere in the text: its tokens up to the first one that
    is not a valid reference are the corners of the fan. *)
Theorem C15_text : forall dbg input set, fits input -> parse dbg input = Ok set ->
  forall ts, tokenizes input ts -> forall done n before rest,
  reaches ts done (Some (n, before)) (lit "f" :: rest) ->
  exists ob toks rest' rs front back, nth_error (objects set) (length done) = Some ob /\
    rest = toks ++ rest' /\ Forall2 (valid_ref (counts_in done []) (counts_in done before)) toks rs /\
    match rest' with t :: _ => forall r, ~ valid_ref (counts_in done []) (counts_in done before) t r | [] => True end /\
    3 <= length toks /\
    let r j := local_ref (counts_in done []) (nth_ref rs j) in
    element_set ob = front ++ map (fun j => Face (r 0) (r (j + 1)) (r (j + 2))) (seq 0 (length toks - 2)) ++ back /\
    length front = length (flat_map written before).
Proof. exact face_place. Qed.
Print Assumptions C15_text.

Theorem C16_polyline_text : forall dbg input set, fits input -> parse dbg input = Ok set ->
  forall ts, tokenizes input ts -> forall done n before rest,
  reaches ts done (Some (n, before)) (lit "l" :: rest) ->
  exists ob toks rest' rs front back, nth_error (objects set) (length done) = Some ob /\
    rest = toks ++ rest' /\ Forall2 (valid_ref (counts_in done []) (counts_in done before)) toks rs /\
    match rest' with t :: _ => forall r, ~ valid_ref (counts_in done []) (counts_in done before) t r | [] => True end /\
    2 <= length toks /\
    let r j := local_ref (counts_in done []) (nth_ref rs j) in
    element_set ob = front ++ map (fun j => Line (r j) (r (j + 1))) (seq 0 (length toks - 1)) ++ back /\
    length front = length (flat_map written before).
Proof. exact line_place. Qed.
Print Assumptions C16_polyline_text.

Theorem C16_points_text : forall dbg input set, fits input -> parse dbg input = Ok set ->
  forall ts, tokenizes input ts -> forall done n before toks rest,
  ~ In nl toks -> rest = [] \/ (exists rest', rest = nl :: rest') ->
  reaches ts done (Some (n, before)) (lit "p" :: toks ++ rest) ->
  exists ob ks front back, nth_error (objects set) (length done) = Some ob /\
    Forall2 number_token toks ks /\ toks <> [] /\
    Forall (in_scope (n_v (counts_in done [])) (n_v (counts_in done before))) ks /\
    element_set ob = front ++ map (fun k => Point (V (k - 1 - n_v (counts_in done [])))) ks ++ back /\
    length front = length (flat_map written before).
Proof. exact point_place. Qed.
Print Assumptions C16_points_text.

Example C15_example : exists set a b,
  parse false demo = Ok set /\ objects set = [a; b] /\
  element_set a = [Face (VN 0 0) (VN 1 0) (VN 2 0); Face (VN 0 0) (VN 2 0) (VN 3 0)] /\
  element_set b = [Point (V 0); Point (V 1); Line (V 0) (V 1); Line (V 1) (V 0)].
Proof. eexists _, _, _. vm_compute. repeat split; reflexivity. Qed.

(** A point list of three and a polyline of four, in an object with two vertices
    before its own. *)
Example C16_example : exists set a b,
  parse false (text "v 0 0 0|v 1 0 0|p 1|o b|v 0 0 0|v 1 0 0|v 0 1 0|p 3 5 3|l 3 4 5 3|") = Ok set /\ objects set = [a; b] /\
  element_set b = [Point (V 0); Point (V 2); Point (V 0); Line (V 0) (V 1); Line (V 1) (V 2); Line (V 2) (V 0)].
Proof. eexists _, _, _. vm_compute. repeat split; reflexivity. Qed.

(** * C17 *)

Theorem C17_shape_entries : forall dbg input set ob, fits input -> parse dbg input = Ok set -> In ob (objects set) ->
  length (shape_set ob) = length (element_set ob) /\
  forall j se, nth_error (shape_set ob) j = Some se ->
    se_element se = j /\ Forall (fun g => g < length (group_set ob)) (se_groups se) /\
    se_smoothing_group se < length (smoothing_group_set ob).
Proof. exact object_shapes. Qed.
Print Assumptions C17_shape_entries.

Example C17_example : exists set a b,
  parse false demo = Ok set /\ objects set = [a; b] /\
  shape_set b = [mkShapeEntry 0 [0] 0; mkShapeEntry 1 [0] 0; mkShapeEntry 2 [1] 0; mkShapeEntry 3 [1] 0] /\
  shape_set a = [mkShapeEntry 0 [0; 1] 0; mkShapeEntry 1 [0; 1] 0].
Proof. eexists _, _, _. vm_compute. repeat split; reflexivity. Qed.

(** * C18 *)

Theorem C18_groups : forall dbg input set, fits input -> parse dbg input = Ok set ->
  forall f, says input f -> forall i ob n ss,
  nth_error (objects set) i = Some ob -> nth_error (file_objects f) i = Some (n, ss) ->
  forall j before s se, element_at ss j before s -> nth_error (shape_set ob) j = Some se ->
  map (nth_error (group_set ob)) (se_groups se) = map Some (active_groups before).
Proof. exact nth_groups. Qed.
Print Assumptions C18_groups.

(** [group_set] lists the declared names, after ["default"] if an element comes
    before the first of them. *)
Theorem C18_group_set : forall dbg input set, fits input -> parse dbg input = Ok set ->
  forall f, says input f -> forall i ob n ss,
  nth_error (objects set) i = Some ob -> nth_error (file_objects f) i = Some (n, ss) ->
  ((exists before s after, ss = before ++ s :: after /\ is_element s = true /\ declared_names before = []) ->
     group_set ob = lit "default" :: declared_names ss) /\
  (~ (exists before s after, ss = before ++ s :: after /\ is_element s = true /\ declared_names before = []) ->
     group_set ob = declared_names ss).
Proof. exact nth_group_set. Qed.
Print Assumptions C18_group_set.

(** After a [g] with names: these. *)
Theorem C18_named : forall dbg input set, fits input -> parse dbg input = Ok set ->
  forall f, says input f -> forall i ob n ss,
  nth_error (objects set) i = Some ob -> nth_error (file_objects f) i = Some (n, ss) ->
  forall j s se, nth_error (shape_set ob) j = Some se ->
  forall before names after, element_at ss j (before ++ SGroup names :: after) s ->
  names <> [] -> (forall t, In t after -> forall m, t <> SGroup m) ->
  map (nth_error (group_set ob)) (se_groups se) = map Some names.
Proof. exact nth_named. Qed.
Print Assumptions C18_named.

(** Without any [g]: the default. *)
Theorem C18_default : forall dbg input set, fits input -> parse dbg input = Ok set ->
  forall f, says input f -> forall i ob n ss,
  nth_error (objects set) i = Some ob -> nth_error (file_objects f) i = Some (n, ss) ->
  forall j s se, nth_error (shape_set ob) j = Some se ->
  forall before, element_at ss j before s ->
  (forall t, In t before -> forall m, t <> SGroup m) ->
  map (nth_error (group_set ob)) (se_groups se) = [Some (lit "default")].
Proof. exact nth_default_group. Qed.
Print Assumptions C18_default.

(** A bare [g] in front of everything is ignored. *)
Theorem C18_bare_front : forall dbg input set, fits input -> parse dbg input = Ok set ->
  forall f, says input f -> forall i ob n ss,
  nth_error (objects set) i = Some ob -> nth_error (file_objects f) i = Some (n, ss) ->
  forall j s se, nth_error (shape_set ob) j = Some se ->
  forall before after, element_at ss j (before ++ SGroup [] :: after) s ->
  (forall t, In t before -> is_element t = false /\ forall m, t <> SGroup m) ->
  (forall t, In t after -> forall m, t <> SGroup m) ->
  map (nth_error (group_set ob)) (se_groups se) = [Some (lit "default")].
Proof. exact nth_bare_front. Qed.
Print Assumptions C18_bare_front.

(** A later one leaves no group. *)
Theorem C18_bare_later : forall dbg input set, fits input -> parse dbg input = Ok set ->
  forall f, says input f -> forall i ob n ss,
  nth_error (objects set) i = Some ob -> nth_error (file_objects f) i = Some (n, ss) ->
  forall j s se, nth_error (shape_set ob) j = Some se ->
  forall before t middle after, element_at ss j (before ++ t :: middle ++ SGroup [] :: after) s ->
  is_element t = true \/ (exists names, names <> [] /\ t = SGroup names) ->
  (forall t, In t after -> forall m, t <> SGroup m) ->
  se_groups se = [].
Proof. exact nth_bare_later. Qed.
Print Assumptions C18_bare_later.

Example C18_example : exists set a b,
  parse false demo = Ok set /\ objects set = [a; b] /\
  group_set a = [lit "quad"; lit "left"] /\ group_set b = [lit "default"; lit "right"] /\
  element_at demo_second 3 (firstn 5 demo_second) (SLine [mkRef 5 None None; mkRef 6 None None; mkRef 5 None None]) /\
  active_groups (firstn 5 demo_second) = [lit "right"] /\
  element_at demo_second 1 (firstn 2 demo_second) (SPoint [5; 6]) /\
  active_groups (firstn 2 demo_second) = [lit "default"].
Proof.
  eexists _, _, _. split; [vm_compute; reflexivity|]. split; [reflexivity|].
  split; [vm_compute; reflexivity|]. split; [vm_compute; reflexivity|].
  split; [exists []; split; [reflexivity|vm_compute; auto]|]. split; [vm_compute; reflexivity|].
  split; [exists (skipn 3 demo_second); split; [reflexivity|vm_compute; auto]|]. vm_compute; reflexivity.
Qed.

(** * C19 *)

Theorem C19_smoothing : forall dbg input set, fits input -> parse dbg input = Ok set ->
  forall f, says input f -> forall i ob n ss,
  nth_error (objects set) i = Some ob -> nth_error (file_objects f) i = Some (n, ss) ->
  forall j before s se, element_at ss j before s -> nth_error (shape_set ob) j = Some se ->
  nth_error (smoothing_group_set ob) (se_smoothing_group se) = Some (active_smoothing before).
Proof. exact nth_smoothing. Qed.
Print Assumptions C19_smoothing.

Theorem C19_last : forall dbg input set, fits input -> parse dbg input = Ok set ->
  forall f, says input f -> forall i ob n ss,
  nth_error (objects set) i = Some ob -> nth_error (file_objects f) i = Some (n, ss) ->
  forall j s se, nth_error (shape_set ob) j = Some se ->
  forall before k after, element_at ss j (before ++ SSmooth k :: after) s ->
  (forall t, In t after -> forall m, t <> SSmooth m) ->
  nth_error (smoothing_group_set ob) (se_smoothing_group se) = Some k.
Proof. exact nth_smoothing_last. Qed.
Print Assumptions C19_last.

Theorem C19_default : forall dbg input set, fits input -> parse dbg input = Ok set ->
  forall f, says input f -> forall i ob n ss,
  nth_error (objects set) i = Some ob -> nth_error (file_objects f) i = Some (n, ss) ->
  forall j s se, nth_error (shape_set ob) j = Some se ->
  forall before, element_at ss j before s ->
  (forall t, In t before -> forall m, t <> SSmooth m) ->
  nth_error (smoothing_group_set ob) (se_smoothing_group se) = Some 0%N.
Proof. exact nth_smoothing_default. Qed.
Print Assumptions C19_default.

Theorem C19_smoothing_group_set : forall dbg input set, fits input -> parse dbg input = Ok set ->
  forall f, says input f -> forall i ob n ss,
  nth_error (objects set) i = Some ob -> nth_error (file_objects f) i = Some (n, ss) ->
  ((exists before s after, ss = before ++ s :: after /\ is_element s = true /\ declared_smoothing before = []) ->
     smoothing_group_set ob = 0%N :: declared_smoothing ss) /\
  (~ (exists before s after, ss = before ++ s :: after /\ is_element s = true /\ declared_smoothing before = []) ->
     smoothing_group_set ob = declared_smoothing ss).
Proof. exact nth_smoothing_set. Qed.
Print Assumptions C19_smoothing_group_set.

Example C19_example : exists set a,
  parse false (text "v 0 0 0|s 3|p 1|s off|p 1|s 7|s 9|p 1 1|") = Ok set /\ objects set = [a] /\
  smoothing_group_set a = [3%N; 0%N; 7%N; 9%N] /\ map se_smoothing_group (shape_set a) = [0; 1; 3; 3].
Proof. eexists _, _. vm_compute. repeat split; reflexivity. Qed.

(** * C20 *)

Theorem C20_partition : forall dbg input set ob, fits input -> parse dbg input = Ok set -> In ob (objects set) ->
  concat (map shapes (geometry_set ob)) = seq 0 (length (element_set ob)).
Proof. exact object_geometries. Qed.
Print Assumptions C20_partition.

Theorem C20_material : forall dbg input set, fits input -> parse dbg input = Ok set ->
  forall f, says input f -> forall i ob n ss,
  nth_error (objects set) i = Some ob -> nth_error (file_objects f) i = Some (n, ss) ->
  forall j before s g, element_at ss j before s -> In g (geometry_set ob) -> In j (shapes g) ->
  material_name g = active_material before.
Proof. exact nth_material. Qed.
Print Assumptions C20_material.

Theorem C20_last : forall dbg input set, fits input -> parse dbg input = Ok set ->
  forall f, says input f -> forall i ob n ss,
  nth_error (objects set) i = Some ob -> nth_error (file_objects f) i = Some (n, ss) ->
  forall j s g, In g (geometry_set ob) -> In j (shapes g) ->
  forall before m after, element_at ss j (before ++ SUse m :: after) s ->
  (forall t, In t after -> forall m', t <> SUse m') -> material_name g = Some m.
Proof. exact nth_material_last. Qed.
Print Assumptions C20_last.

Theorem C20_none : forall dbg input set, fits input -> parse dbg input = Ok set ->
  forall f, says input f -> forall i ob n ss,
  nth_error (objects set) i = Some ob -> nth_error (file_objects f) i = Some (n, ss) ->
  forall j s g, In g (geometry_set ob) -> In j (shapes g) ->
  forall before, element_at ss j before s ->
  (forall t, In t before -> forall m', t <> SUse m') -> material_name g = None.
Proof. exact nth_material_none. Qed.
Print Assumptions C20_none.

(** Only the last geometry can be empty. *)
Theorem C20_empty_last : forall dbg input set ob, fits input -> parse dbg input = Ok set -> In ob (objects set) ->
  forall g gs hs, geometry_set ob = gs ++ g :: hs -> hs <> [] -> shapes g <> [].
Proof. exact object_empty_last. Qed.
Print Assumptions C20_empty_last.

Example C20_example : exists set a b,
  parse false demo = Ok set /\ objects set = [a; b] /\
  geometry_set a = [mkGeometry (Some (lit "red")) [0; 1]] /\
  geometry_set b = [mkGeometry None [0; 1]; mkGeometry (Some (lit "blue")) [2; 3]] /\
  active_material (firstn 5 demo_second) = Some (lit "blue").
Proof. eexists _, _, _. vm_compute. repeat split; reflexivity. Qed.

(** * C22 *)

Theorem C22_libraries : forall dbg input set ts, fits input -> parse dbg input = Ok set -> tokenizes input ts ->
  exists rest, reads_libraries ts (material_libraries set) rest.
Proof. exact parsed_library_lines. Qed.
Print Assumptions C22_libraries.

(** Written out for a text that starts with the lines [lines]. *)
Theorem C22_library_lines : forall dbg input set lines ts, fits input -> parse dbg input = Ok set ->
  tokenizes input (flat_map (fun names => lit "mtllib" :: names ++ [nl]) lines ++ ts) ->
  Forall (fun names => ~ In nl names) lines ->
  match ts with [] => True | t :: _ => t <> nl /\ t <> lit "mtllib" end ->
  material_libraries set = concat lines.
Proof. exact parsed_lines. Qed.
Print Assumptions C22_library_lines.

Example C22_example : exists set,
  parse false (text "|mtllib a.mtl b.mtl||mtllib|mtllib c.mtl|v 0 0 0|p 1|") = Ok set /\
  material_libraries set = [lit "a.mtl"; lit "b.mtl"; lit "c.mtl"].
Proof. eexists. vm_compute. split; reflexivity. Qed.

(** * C23 *)

Theorem C23_unknown_statement : forall input before after ts w rest done o, fits input ->
  input = before ++ after -> tokenizes before ts -> tokenizes after (w :: rest) -> tokenizes input (ts ++ w :: rest) ->
  reaches (ts ++ w :: rest) done (Some o) (w :: rest) ->
  ~ In w keywords -> w <> nl -> w <> lit "o" ->
  parse false input = Err (mkParseError (line_after before) InvalidObjectStatement (msg_statement w)).
Proof. exact unknown_statement. Qed.
Print Assumptions C23_unknown_statement.

(** There is no other reason for this error. *)
Theorem C23_only : forall dbg input e, fits input -> parse dbg input = Err e -> err_kind e = InvalidObjectStatement ->
  exists before after ts w rest done o,
    input = before ++ after /\ tokenizes before ts /\ tokenizes after (w :: rest) /\ tokenizes input (ts ++ w :: rest) /\
    reaches (ts ++ w :: rest) done (Some o) (w :: rest) /\
    ~ In w keywords /\ w <> nl /\ w <> lit "o" /\
    e = mkParseError (line_after before) InvalidObjectStatement (msg_statement w).
Proof. exact unknown_only. Qed.
Print Assumptions C23_only.

Example C23_example :
  parse true (text "v 0 0 0|p 1|mtllib late.mtl|") = Err (mkParseError 3 InvalidObjectStatement (msg_statement (lit "mtllib"))) /\
  parse true (text "v 0 0 0|o x||v 0 0 0|vp 1 2|p 1|") = Panic PanicIndex /\
  parse true (text "v 0 0 0|p 1|o x||v 0 0 0|vp 1 2|p 1|") = Err (mkParseError 6 InvalidObjectStatement (msg_statement (lit "vp"))).
Proof. repeat split; vm_compute; reflexivity. Qed.

(** * C24 *)

Theorem C24_error_line : forall dbg input e, fits input -> parse dbg input = Err e ->
  exists x y z tx ty tz, input = x ++ y ++ z /\
    tokenizes x tx /\ tokenizes y ty /\ tokenizes z tz /\ tokenizes input (tx ++ ty ++ tz) /\
    fails_at (tx ++ ty ++ tz) (ty ++ tz) (err_kind e, err_message e) tz /\
    err_line_number e = line_after (x ++ y) /\
    line_after x <= err_line_number e <= line_after x + 1.
Proof. exact error_place. Qed.
Print Assumptions C24_error_line.

Theorem C24_error_line_bounds : forall dbg input e, fits input -> parse dbg input = Err e ->
  1 <= err_line_number e <= 1 + count_occ ascii_dec input LF.
Proof. exact error_bounds. Qed.
Print Assumptions C24_error_line_bounds.

(** And every such place gives this error. *)
Theorem C24_error_iff : forall input e, fits input ->
  parse false input = Err e <->
  exists x y z tx ty tz, input = x ++ y ++ z /\
    tokenizes x tx /\ tokenizes y ty /\ tokenizes z tz /\ tokenizes input (tx ++ ty ++ tz) /\
    fails_at (tx ++ ty ++ tz) (ty ++ tz) (err_kind e, err_message e) tz /\
    err_line_number e = line_after (x ++ y).
Proof. exact error_iff. Qed.
Print Assumptions C24_error_iff.

Example C24_example :
  parse true (text "v 0 0 0|p 1|v 0 0|p 1|") = Err (mkParseError 4 ExpectedFloat (msg_float nl)) /\
  parse true (text "v 0 0 0|p 1|v 0 x|p 1|") = Err (mkParseError 3 ExpectedFloat (msg_float (lit "x"))).
Proof. split; vm_compute; reflexivity. Qed.
