(** Properties of the [Display] implementations: C35, C41, C45.

    DisplaySpec.v says what should be shown. *)
From Coq Require Import Floats.SpecFloat.
From Verif Require Import ObjModel DisplayModel DisplaySpec ExampleText ObjTop DisplayProofs.
Local Open Scope list_scope.

(** * C35 *)

(** The text of an index is a reference token for the same numbers, counted from
    one. *)
Theorem C35_index : forall dbg i,
  (Z.of_nat (index_vertex i) < isize_max)%Z ->
  (forall k, index_texture i = Some k -> (Z.of_nat k < isize_max)%Z) ->
  (forall k, index_normal i = Some k -> (Z.of_nat k < isize_max)%Z) ->
  exists s, show_vtn_index dbg i = Some s /\
    ref_token s (mkRef (S (index_vertex i)) (option_map S (index_texture i)) (option_map S (index_normal i))).
Proof. exact show_index_token. Qed.
Print Assumptions C35_index.

Theorem C35_smoothing_group : forall n, (n < 2 ^ 64)%N -> exists s, show_smoothing_group n = Some s /\ smoothing_token s n.
Proof. exact show_smoothing_token. Qed.
Print Assumptions C35_smoothing_group.

(** Vertices and elements displayed one per line are a file that is read back as
    just these vertices and elements. *)
Theorem C35_read_back : forall dbg dbg' vs ts ns es lv lt ln le,
  Forall vertex_f64 vs -> Forall texture_f64 ts -> Forall normal_f64 ns ->
  Forall (element_in (length vs) (length ts) (length ns)) es -> es <> [] ->
  map show_vertex vs = map Some lv -> map show_texture_vertex ts = map Some lt ->
  map show_normal_vertex ns = map Some ln -> map (show_element dbg) es = map Some le ->
  fits (unlines (lv ++ lt ++ ln ++ le)) ->
  exists ob, ObjModel.parse dbg' (unlines (lv ++ lt ++ ln ++ le)) = Ok (mkObjectSet [] [ob]) /\
    vertex_set ob = vs /\ texture_vertex_set ob = ts /\ normal_vertex_set ob = ns /\ element_set ob = es.
Proof. exact display_read_back. Qed.
Print Assumptions C35_read_back.

(** Every object that has been parsed is such a collection. *)
Theorem C35_parsed_read_back : forall dbg input set ob dbg' dbg'' lv lt ln le,
  fits input -> ObjModel.parse dbg input = Ok set -> In ob (objects set) -> element_set ob <> [] ->
  map show_vertex (vertex_set ob) = map Some lv -> map show_texture_vertex (texture_vertex_set ob) = map Some lt ->
  map show_normal_vertex (normal_vertex_set ob) = map Some ln -> map (show_element dbg') (element_set ob) = map Some le ->
  fits (unlines (lv ++ lt ++ ln ++ le)) ->
  exists ob', ObjModel.parse dbg'' (unlines (lv ++ lt ++ ln ++ le)) = Ok (mkObjectSet [] [ob']) /\
    vertex_set ob' = vertex_set ob /\ texture_vertex_set ob' = texture_vertex_set ob /\
    normal_vertex_set ob' = normal_vertex_set ob /\ element_set ob' = element_set ob.
Proof. exact parsed_read_back. Qed.
Print Assumptions C35_parsed_read_back.

Definition display_demo : bytes := text "v 0.1 -0 1e3|v nan inf 1e-7 2|v 3 4 5|vt 0.5|vn 0 0 1|f 1/1/1 2/1/1 3/1/1|l 2 3|p 1".

Example C35_example : exists set ob lv lt ln le,
  ObjModel.parse true display_demo = Ok set /\ objects set = [ob] /\
  map show_vertex (vertex_set ob) = map Some lv /\ map show_texture_vertex (texture_vertex_set ob) = map Some lt /\
  map show_normal_vertex (normal_vertex_set ob) = map Some ln /\ map (show_element true) (element_set ob) = map Some le /\
  unlines (lv ++ lt ++ ln ++ le) =
    text "v  0.1  -0  1000  1|v  NaN  inf  0.0000001  2|v  3  4  5  1|vt  0.5  0  0|vn  0  0  1|f  1/1/1  2/1/1  3/1/1|l  2  3|p  1|" /\
  exists ob', ObjModel.parse true (unlines (lv ++ lt ++ ln ++ le)) = Ok (mkObjectSet [] [ob']) /\
    vertex_set ob' = vertex_set ob /\ element_set ob' = element_set ob /\ length (vertex_set ob) = 3 /\ length (element_set ob) = 3.
Proof.
  eexists _, _, [_; _; _], [_], [_], [_; _; _]. split; [vm_compute; reflexivity|]. split; [reflexivity|].
  split; [vm_compute; reflexivity|]. split; [vm_compute; reflexivity|]. split; [vm_compute; reflexivity|]. split; [vm_compute; reflexivity|].
  split; [vm_compute; reflexivity|]. eexists. split; [vm_compute; reflexivity|]. vm_compute. repeat split; reflexivity.
Qed.

(** * C41 *)

(** What is written for an object: its name, and for each set its first and last
    entry and its length. *)
Theorem C41_object : forall dbg ob,
  (dbg = true -> forall e, In e (element_set ob) -> Forall index_usize (corners (draw_element e))) ->
  exists lv lt ln lg ls le sv st sn sg ss se,
    map show_vertex (vertex_set ob) = map Some lv /\ map show_texture_vertex (texture_vertex_set ob) = map Some lt /\
    map show_normal_vertex (normal_vertex_set ob) = map Some ln /\ map show_group (group_set ob) = map Some lg /\
    map show_smoothing_group (smoothing_group_set ob) = map Some ls /\ map (show_element dbg) (element_set ob) = map Some le /\
    reports "vertex" lv sv /\ reports "texture vertex" lt st /\ reports "normal vertex" ln sn /\
    reports "group" lg sg /\ reports "smoothing group" ls ss /\ reports "element" le se /\
    show_object dbg ob = Some (unlines [lit "Object {"; lit "    name: " ++ name ob] ++ sv ++ st ++ sn ++ sg ++ ss ++ se ++ unlines [lit "}}"]).
Proof. exact show_object_reports. Qed.
Print Assumptions C41_object.

(** And for a set of objects: the objects, in order. *)
Theorem C41_object_set : forall dbg set,
  (dbg = true -> forall ob e, In ob (objects set) -> In e (element_set ob) -> Forall index_usize (corners (draw_element e))) ->
  exists texts, map (show_object dbg) (objects set) = map Some texts /\
    show_object_set dbg set = Some (unlines [lit "ObjectSet {"] ++ unlines texts ++ unlines [lit "}"]).
Proof. exact show_set_some. Qed.
Print Assumptions C41_object_set.

(** What has been parsed can be displayed, in both kinds of build. *)
Theorem C41_parsed_object : forall dbg dbg' input set ob, fits input -> ObjModel.parse dbg input = Ok set -> In ob (objects set) ->
  show_object dbg' ob <> None.
Proof. exact parsed_object_shown. Qed.
Print Assumptions C41_parsed_object.

Theorem C41_parsed_object_set : forall dbg dbg' input set, fits input -> ObjModel.parse dbg input = Ok set ->
  show_object_set dbg' set <> None.
Proof. exact parsed_set_shown. Qed.
Print Assumptions C41_parsed_object_set.

(** But not every value can be displayed in a debug build: [usize::MAX + 1]
    overflows. *)
Theorem C41_every_object_refuted : ~ (forall dbg ob, show_object dbg ob <> None).
Proof. intros H. destruct max_object_panics as (ob & E). exact (H _ _ E). Qed.
Print Assumptions C41_every_object_refuted.

Example C41_example :
  match ObjModel.parse true (text "o a|v 0 0 0|v 1 0 0|g left right|p 1 2 1") with
  | Ok set => show_object_set true set
  | _ => None
  end = Some (text
"ObjectSet {|Object {|    name: a|    vertex set:|        data: [(v  0  0  0  1) ... (v  1  0  0  1)]|        length: 2|    texture vertex set:|        data: []|        length: 0|    normal vertex set:|        data: []|        length: 0|    group set:|        data: [(left) ... (right)]|        length: 2|    smoothing group set:|        data: [(off) ... (off)]|        length: 1|    element set:|        data: [(p  1) ... (p  1)]|        length: 3|}}||}|").
Proof. vm_compute. reflexivity. Qed.

(** * C45 *)

Theorem C45_error_text : forall K (e : parse_error K), exists n, n <> [] /\ digits n (N.of_nat (err_line_number e)) /\
  show_parse_error e = lit "Parse error at line " ++ n ++ lit ": " ++ err_message e.
Proof. exact error_text. Qed.
Print Assumptions C45_error_text.

(** The text determines the line number and the message. *)
Theorem C45_error_determined : forall K K' (e : parse_error K) (e' : parse_error K'), show_parse_error e = show_parse_error e' ->
  err_line_number e = err_line_number e' /\ err_message e = err_message e'.
Proof. exact show_error_inj. Qed.
Print Assumptions C45_error_determined.

Example C45_example : exists e, ObjModel.parse true (text "v 0 0 0|v 1 2 x") = Err e /\
  show_parse_error e = lit "Parse error at line 2: Expected a floating point number but got `x` instead.".
Proof. eexists. split; vm_compute; reflexivity. Qed.
