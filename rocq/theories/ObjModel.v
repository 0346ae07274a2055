(** Model of src/obj.rs (the parser; [Display] is in DisplayModel.v). *)
From Verif Require Export ObjTypes ParserBase.
Local Open Scope list_scope.

(** * Functions on the data types *)

(** obj.rs:228-236, [VTNIndex::has_same_type_as] *)
Definition has_same_type_as (self other : vtn_index) : bool :=
  match self, other with
  | V _, V _ => true
  | VT _ _, VT _ _ => true
  | VN _ _, VN _ _ => true
  | VTN _ _ _, VTN _ _ _ => true
  | _, _ => false
  end.

(** obj.rs:494-521, [Object::get_vtn_triple] *)
Definition get_vtn_triple (self : object) (i : vtn_index) : option vtn_triple :=
  match i with
  | V v_index =>
      match nth_error (vertex_set self) v_index with
      | Some vertex => Some (TripleV vertex)
      | None => None
      end
  | VT v_index vt_index =>
      match nth_error (vertex_set self) v_index with
      | Some vertex =>
          match nth_error (texture_vertex_set self) vt_index with
          | Some texture_vertex => Some (TripleVT vertex texture_vertex)
          | None => None
          end
      | None => None
      end
  | VN v_index vn_index =>
      match nth_error (vertex_set self) v_index with
      | Some vertex =>
          match nth_error (normal_vertex_set self) vn_index with
          | Some normal_vertex => Some (TripleVN vertex normal_vertex)
          | None => None
          end
      | None => None
      end
  | VTN v_index vt_index vn_index =>
      match nth_error (vertex_set self) v_index with
      | Some vertex =>
          match nth_error (texture_vertex_set self) vt_index with
          | Some texture_vertex =>
              match nth_error (normal_vertex_set self) vn_index with
              | Some normal_vertex => Some (TripleVTN vertex texture_vertex normal_vertex)
              | None => None
              end
          | None => None
          end
      | None => None
      end
  end.

(** * The local state of [parse_object]

    obj.rs:1303-1325: the [let mut] variables, grouped by the concern they
    belong to.  Tables are [Vec]s of pairs of (min, max) index pairs. *)

Record geometry_data := mkGeometryData {
  vertices : list vertex;
  texture_vertices : list texture_vertex;
  normal_vertices : list normal_vertex;
  elements : list element
}.

(** obj.rs:1308-1313 *)
Record group_state := mkGroupState {
  group_entry_table : list ((nat * nat) * (nat * nat));
  groups : list group;
  min_element_group_index : nat;
  max_element_group_index : nat;
  min_group_index : nat;
  max_group_index : nat
}.

(** obj.rs:1315-1319 *)
Record smoothing_state := mkSmoothingState {
  smoothing_group_entry_table : list ((nat * nat) * nat);
  smoothing_groups : list smoothing_group;
  min_element_smoothing_group_index : nat;
  max_element_smoothing_group_index : nat;
  smoothing_group_index : nat
}.

(** obj.rs:1321-1325 *)
Record material_state := mkMaterialState {
  material_name_entry_table : list ((nat * nat) * nat);
  material_names : list (option bytes);
  min_element_material_name_index : nat;
  max_element_material_name_index : nat;
  material_name_index : nat
}.

(** The six [&mut usize] parameters of [parse_object], obj.rs:1294-1299.  They
    count statements of the input, so they fit in [usize] (and, cast to
    [isize], stay non-negative): they are [nat]. *)
Record index_ranges := mkIndexRanges {
  min_vertex_index : nat;
  max_vertex_index : nat;
  min_texture_index : nat;
  max_texture_index : nat;
  min_normal_index : nat;
  max_normal_index : nat
}.

(** obj.rs:1294-1299 and 1303-1325, all of it *)
Record object_state := mkObjectState {
  os_data : geometry_data;
  os_groups : group_state;
  os_smoothing : smoothing_state;
  os_material : material_state;
  os_ranges : index_ranges
}.

(** obj.rs:1303-1325: initial values. *)
Definition object_state_new (r : index_ranges) : object_state :=
  mkObjectState
    (mkGeometryData [] [] [] [])
    (mkGroupState [] [] 0 0 0 0)
    (mkSmoothingState [] [] 0 0 0)
    (mkMaterialState [] [] 0 0 0)
    r.

(** Assignments to these variables (obj.rs:1331-1459). *)
Definition set_data (st : object_state) (d : geometry_data) : object_state :=
  mkObjectState d (os_groups st) (os_smoothing st) (os_material st) (os_ranges st).
Definition set_groups (st : object_state) (g : group_state) : object_state :=
  mkObjectState (os_data st) g (os_smoothing st) (os_material st) (os_ranges st).
Definition set_smoothing (st : object_state) (s : smoothing_state) : object_state :=
  mkObjectState (os_data st) (os_groups st) s (os_material st) (os_ranges st).
Definition set_material (st : object_state) (m : material_state) : object_state :=
  mkObjectState (os_data st) (os_groups st) (os_smoothing st) m (os_ranges st).
Definition set_ranges (st : object_state) (r : index_ranges) : object_state :=
  mkObjectState (os_data st) (os_groups st) (os_smoothing st) (os_material st) r.

(** [(usize, usize)] index ranges as passed to the element parsers
    (obj.rs:1423-1425). *)
Definition vertex_range (r : index_ranges) : nat * nat := (min_vertex_index r, max_vertex_index r).
Definition texture_range (r : index_ranges) : nat * nat := (min_texture_index r, max_texture_index r).
Definition normal_range (r : index_ranges) : nat * nat := (min_normal_index r, max_normal_index r).

(** obj.rs:1234, [shape_entry_table[i].smoothing_group = v], for [i] in bounds. *)
Fixpoint set_smoothing_at (t : list shape_entry) (i v : nat) : list shape_entry :=
  match t, i with
  | [], _ => []
  | e :: t', 0 => mkShapeEntry (se_element e) (se_groups e) v :: t'
  | e :: t', S i' => e :: set_smoothing_at t' i' v
  end.

Section Parser.
Context {S : token_source}.

(** A method of [obj::Parser]. *)
Local Notation M := (M S error_kind).

(** [dbg]: overflow checks and debug assertions are on.  [fuel]: bound on the
    number of rounds of each loop. *)
Context (dbg : bool) (fuel : nat).

(** obj.rs:677-684, [triangulate].  Returns the number of faces pushed and the
    new [elements]. *)
Definition triangulate (elements : list element) (vtn_indices : list vtn_index)
  : M (nat * list element) :=
  vertex0 <- index vtn_indices 0 ;;
  n <- len_minus dbg vtn_indices 2 ;;
  elements' <- for_each (range 0 n) (fun elements i =>
      v1 <- index vtn_indices (i + 1) ;;
      v2 <- index vtn_indices (i + 2) ;;
      ret (elements ++ [Face vertex0 v1 v2])) elements ;;
  ret (n, elements').

(** obj.rs:688-696, [verify_vtn_indices].  The early [return false] is a [&&];
    its indices are in bounds by construction of the range. *)
Definition verify_vtn_indices (vtn_indices : list vtn_index) : M bool :=
  for_each (range 1 (length vtn_indices)) (fun (ok : bool) i =>
    if ok then
      a <- index vtn_indices i ;;
      b <- index vtn_indices 0 ;;
      ret (has_same_type_as a b)
    else ret false) true.

(** obj.rs:738-746, [Parser::next_string] *)
Definition next_string : M bytes :=
  t <- next ;;
  match t with
  | Some st => ret st
  | None =>
      error EndOfFile
        (lit "Reached the end of the input in the process of getting the next token.")
  end.

(** obj.rs:752-764, [Parser::expect_tag] *)
Definition expect_tag (tag : bytes) : M unit :=
  t <- next ;;
  match t with
  | None =>
      error EndOfFile
        (lit "Reached the end of the input in the process of getting the next token.")
  | Some st =>
      if negb (bytes_eqb st tag) then
        error ExpectedTagStatement
          (lit "Expected `" ++ tag ++ lit "` but got `" ++ st ++ lit "` instead.")
      else ret tt
  end.

(** obj.rs:767-776, [Parser::parse_f64] *)
Definition parse_f64 : M f64 :=
  st <- next_string ;;
  match RustStd.parse_f64 st with
  | Some val => ret val
  | None =>
      error ExpectedFloat
        (lit "Expected a floating point number but got `" ++ st ++ lit "` instead.")
  end.

(** obj.rs:783-786, 914-917 and 1009-1012: the same error in three places. *)
Definition error_expected_integer {A} (st : bytes) : M A :=
  error ExpectedInteger (lit "Expected an integer but got `" ++ st ++ lit "` instead.").

(** obj.rs:779-788, [Parser::parse_isize] *)
Definition parse_isize : M Z :=
  st <- next_string ;;
  match RustStd.parse_isize st with
  | Some val => ret val
  | None => error_expected_integer st
  end.

(** obj.rs:795-806, [Parser::try_once] *)
Definition try_once {T} (parser : bytes -> option T) : M (option T) :=
  t <- peek ;;
  match t with
  | Some st =>
      match parser st with
      | Some got => advance ;;; ret (Some got)
      | None => ret None
      end
  | None => ret None
  end.

(** [Option::unwrap_or] (obj.rs:816, 832 and 834). *)
Definition unwrap_or {T} (o : option T) (d : T) : T :=
  match o with Some x => x | None => d end.

(** obj.rs:809-824, [Parser::parse_vertex] *)
Definition parse_vertex : M vertex :=
  expect_tag (lit "v") ;;;
  x <- parse_f64 ;;
  y <- parse_f64 ;;
  z <- parse_f64 ;;
  mw <- try_once RustStd.parse_f64 ;;
  let w := unwrap_or mw f64_one in
  ret (mkVertex x y z w).

(** obj.rs:827-837, [Parser::parse_texture_vertex] *)
Definition parse_texture_vertex : M texture_vertex :=
  expect_tag (lit "vt") ;;;
  u <- parse_f64 ;;
  mv <- try_once RustStd.parse_f64 ;;
  let v := unwrap_or mv f64_zero in
  mw <- try_once RustStd.parse_f64 ;;
  let w := unwrap_or mw f64_zero in
  ret (mkTextureVertex u v w).

(** obj.rs:840-848, [Parser::parse_normal_vertex] *)
Definition parse_normal_vertex : M normal_vertex :=
  expect_tag (lit "vn") ;;;
  x <- parse_f64 ;;
  y <- parse_f64 ;;
  z <- parse_f64 ;;
  ret (mkNormalVertex x y z).

(** obj.rs:860-864, [Parser::skip_one_or_more_newlines] *)
Definition skip_one_or_more_newlines : M unit :=
  expect_tag nl ;;;
  skip_zero_or_more_newlines fuel ;;;
  ret tt.

(** obj.rs:867-878, [Parser::parse_object_name] *)
Definition parse_object_name : M bytes :=
  t <- peek ;;
  if is_tok t "o" then
    expect_tag (lit "o") ;;;
    object_name <- catch next_string ;;
    skip_one_or_more_newlines ;;;
    from_result object_name
  else ret [].

(** obj.rs:881-901, [Parser::calculate_index].  [as isize] of the range bounds
    is exact (see [index_ranges]). *)
Definition calculate_index (value_range : nat * nat) (parsed_value : Z) : M nat :=
  let '(min_value, max_value) := value_range in
  actual_value <- (if (parsed_value <=? 0)%Z
                   then isize_sub dbg (Z.of_nat max_value) parsed_value
                   else isize_sub dbg parsed_value 1) ;;
  if (Z.of_nat min_value <=? actual_value)%Z && (actual_value <? Z.of_nat max_value)%Z then
    debug_assert dbg (0 <=? actual_value)%Z ;;;
    difference <- isize_sub dbg actual_value (Z.of_nat min_value) ;;
    ret (Z.to_nat difference)
  else
    error VTNIndexOutOfRange
      (lit "Expected index in range [" ++ show_nat min_value ++ lit ", " ++ show_nat max_value
         ++ lit "), but got " ++ show_Z actual_value ++ lit ".").

(** obj.rs:911-924, the closure [process_split] *)
Definition process_split (split : bytes) (value_range : nat * nat) : M (option nat) :=
  match split with
  | [] => ret None
  | _ =>
      match RustStd.parse_isize split with
      | Some parsed_value =>
          i <- calculate_index value_range parsed_value ;;
          ret (Some i)
      | None => error_expected_integer split
      end
  end.

(** obj.rs:927-938: [splits_iter.next().and_then(..).transpose()?] - the next
    part if there is one, and the remaining parts. *)
Definition process_next (splits : list bytes) (value_range : nat * nat)
  : M (option nat * list bytes) :=
  match splits with
  | [] => ret (None, [])
  | s :: splits' =>
      r <- process_split s value_range ;;
      ret (r, splits')
  end.

(** obj.rs:904-962, [Parser::parse_vtn_index] *)
Definition parse_vtn_index (vertex_index_range texture_index_range normal_index_range : nat * nat)
  : M vtn_index :=
  st <- next_string ;;
  let splits := split_on "/"%char st in
  '(split1, splits) <- process_next splits vertex_index_range ;;
  '(split2, splits) <- process_next splits texture_index_range ;;
  '(split3, splits) <- process_next splits normal_index_range ;;
  let expected_vtn_index : M vtn_index :=
    error ExpectedVTNIndex
      (lit "Expected a `vertex/texture/normal` index but got `" ++ st ++ lit "` instead.") in
  if match split1 with None => true | Some _ => false end
     || match splits with [] => false | _ :: _ => true end
  then expected_vtn_index
  else
    match split1, split2, split3 with
    | Some v, None, None => ret (V v)
    | Some v, None, Some vn => ret (VN v vn)
    | Some v, Some vt, None => ret (VT v vt)
    | Some v, Some vt, Some vn => ret (VTN v vt vn)
    | _, _, _ => expected_vtn_index
    end.

(** obj.rs:967-983, [Parser::parse_vtn_indices].  The vector passed by
    [&mut] is a parameter and a result.  [while let Ok(..)] discards the error
    but not the effect of the failing call on the stream. *)
Definition parse_vtn_indices (vtn_indices : list vtn_index)
    (vertex_index_range texture_index_range normal_index_range : nat * nat)
  : M (nat * list vtn_index) :=
  loop fuel (fun '(indices_parsed, vtn_indices) =>
    r <- catch (parse_vtn_index vertex_index_range texture_index_range normal_index_range) ;;
    match r with
    | inl vtn_index => ret (Continue (indices_parsed + 1, vtn_indices ++ [vtn_index]))
    | inr _ => ret (Break (indices_parsed, vtn_indices))
    end) (0, vtn_indices).

(** obj.rs:989-1020, [Parser::parse_point].  Elements pushed before an error are
    not observable: the error ends the whole parse. *)
Definition parse_point (elements : list element) (vertex_index_range : nat * nat)
  : M (nat * list element) :=
  expect_tag (lit "p") ;;;
  parsed_value <- parse_isize ;;
  v_index <- calculate_index vertex_index_range parsed_value ;;
  loop fuel (fun '(elements_parsed, elements) =>
    t <- next ;;
    match t with
    | Some st =>
        if negb (bytes_eqb st nl) then
          match RustStd.parse_isize st with
          | Some val =>
              v_index <- calculate_index vertex_index_range val ;;
              ret (Continue (elements_parsed + 1, elements ++ [Point (V v_index)]))
          | None => error_expected_integer st
          end
        else ret (Break (elements_parsed, elements))
    | None => ret (Break (elements_parsed, elements))
    end) (1, elements ++ [Point (V v_index)]).

(** obj.rs:1026-1066, [Parser::parse_line] *)
Definition parse_line (elements : list element)
    (vertex_index_range texture_index_range normal_index_range : nat * nat)
  : M (nat * list element) :=
  expect_tag (lit "l") ;;;
  v1 <- parse_vtn_index vertex_index_range texture_index_range normal_index_range ;;
  v2 <- parse_vtn_index vertex_index_range texture_index_range normal_index_range ;;
  '(_, vtn_indices) <- parse_vtn_indices [v1; v2]
                         vertex_index_range texture_index_range normal_index_range ;;
  ok <- verify_vtn_indices vtn_indices ;;
  if negb ok then
    error EveryVTNIndexMustHaveTheSameFormForAGivenElement
      (lit "Every VTN index for a line must have the same form.")
  else
    n <- len_minus dbg vtn_indices 1 ;;
    elements' <- for_each (range 0 n) (fun elements i =>
        a <- index vtn_indices i ;;
        b <- index vtn_indices (i + 1) ;;
        ret (elements ++ [Line a b])) elements ;;
    ret (n, elements').

(** obj.rs:1076-1112, [Parser::parse_face] *)
Definition parse_face (elements : list element)
    (vertex_index_range texture_index_range normal_index_range : nat * nat)
  : M (nat * list element) :=
  expect_tag (lit "f") ;;;
  '(_, vtn_indices) <- parse_vtn_indices []
                         vertex_index_range texture_index_range normal_index_range ;;
  if length vtn_indices <? 3 then
    error EveryFaceElementMustHaveAtLeastThreeVertices
      (lit "A face primitive must have at least three vertices.")
  else
    ok <- verify_vtn_indices vtn_indices ;;
    if negb ok then
      error EveryVTNIndexMustHaveTheSameFormForAGivenElement
        (lit "Every VTN index for a face must have the same form.")
    else triangulate elements vtn_indices.

(** obj.rs:1115-1141, [Parser::parse_elements] *)
Definition parse_elements (elements : list element)
    (vertex_index_range texture_index_range normal_index_range : nat * nat)
  : M (nat * list element) :=
  t <- peek ;;
  if is_tok t "p" then parse_point elements vertex_index_range
  else if is_tok t "l" then
    parse_line elements vertex_index_range texture_index_range normal_index_range
  else if is_tok t "f" then
    parse_face elements vertex_index_range texture_index_range normal_index_range
  else
    error ElementMustBeAPointLineOrFace
      (lit "An element must be a point (`p`), line (`l`), or face (`f`).").

(** obj.rs:1147-1155 and 1527-1535: read tokens up to a newline (consumed) or
    the end of the input.  Returns the count and the extended vector. *)
Definition names_until_newline (names : list bytes) : M (nat * list bytes) :=
  loop fuel (fun '(parsed, names) =>
    t <- next ;;
    match t with
    | Some name =>
        if negb (bytes_eqb name nl)
        then ret (Continue (parsed + 1, names ++ [name]))
        else ret (Break (parsed, names))
    | None => ret (Break (parsed, names))
    end) (0, names).

(** obj.rs:1144-1158, [Parser::parse_groups] *)
Definition parse_groups (groups : list group) : M (nat * list group) :=
  expect_tag (lit "g") ;;;
  names_until_newline groups.

(** obj.rs:1161-1189, [Parser::parse_smoothing_group] *)
Definition parse_smoothing_group (smoothing_groups : list smoothing_group)
  : M (nat * list smoothing_group) :=
  expect_tag (lit "s") ;;;
  t <- next ;;
  match t with
  | Some name =>
      if bytes_eqb name (lit "off") then ret (1, smoothing_groups ++ [0%N])
      else match parse_usize name with
           | Some number => ret (1, smoothing_groups ++ [number])
           | None =>
               error SmoothingGroupNameMustBeOffOrInteger
                 (lit "A smoothing group name must either be `off`, which denotes that an object has no smoothing groups, or an integer. The parser got `"
                    ++ name ++ lit "` instead.")
           end
  | None =>
      error SmoothingGroupDeclarationHasNoName
        (lit "Got a smoothing group declaration without a smoothing group name.")
  end.

(** obj.rs:1192-1207, [Parser::parse_material_name] *)
Definition parse_material_name (material_names : list (option bytes))
  : M (nat * list (option bytes)) :=
  expect_tag (lit "usemtl") ;;;
  t <- next ;;
  match t with
  | Some name => ret (1, material_names ++ [Some name])
  | None =>
      error MaterialStatementHasNoName
        (lit "Got a `usemtl` material declaration without a material name.")
  end.

(** obj.rs:1212-1238, [Parser::parse_shape_entries] *)
Definition parse_shape_entries (elements : list element)
    (group_entry_table : list ((nat * nat) * (nat * nat)))
    (smoothing_group_entry_table : list ((nat * nat) * nat))
  : M (list shape_entry) :=
  table <- for_each group_entry_table (fun table '((min_element_index, max_element_index),
                                                   (min_group_index, max_group_index)) =>
      let groups := range min_group_index max_group_index in
      for_each (range min_element_index max_element_index) (fun table i =>
        ret (table ++ [mkShapeEntry i groups 0])) table) [] ;;
  debug_assert dbg (length table =? length elements) ;;;
  table <- for_each smoothing_group_entry_table (fun table '((min_element_index, max_element_index),
                                                            smoothing_group_index) =>
      for_each (range min_element_index max_element_index) (fun table i =>
        index table i ;;;
        ret (set_smoothing_at table i smoothing_group_index)) table) table ;;
  debug_assert dbg (length table =? length elements) ;;;
  ret table.

(** obj.rs:1241-1256, [Parser::parse_geometries] *)
Definition parse_geometries (material_name_entry_table : list ((nat * nat) * nat))
    (material_names : list (option bytes)) : M (list geometry) :=
  for_each material_name_entry_table (fun geometries '((min_element_index, max_element_index),
                                                      material_name_index) =>
    let shapes := range min_element_index max_element_index in
    material_name <- index material_names material_name_index ;;
    ret (geometries ++ [mkGeometry material_name shapes])) [].

(** obj.rs:1331-1346, the two [Some("g")] arms *)
Definition parse_object_g (g : group_state) : M group_state :=
  match groups g with
  | [] =>
      '(amount_parsed, groups') <- parse_groups (groups g) ;;
      ret (mkGroupState (group_entry_table g) groups'
             (min_element_group_index g) (max_element_group_index g)
             (min_group_index g) (max_group_index g + amount_parsed))
  | _ =>
      let table := group_entry_table g ++
        [((min_element_group_index g, max_element_group_index g),
          (min_group_index g, max_group_index g))] in
      '(amount_parsed, groups') <- parse_groups (groups g) ;;
      ret (mkGroupState table groups'
             (max_element_group_index g) (max_element_group_index g)
             (max_group_index g) (max_group_index g + amount_parsed))
  end.

(** obj.rs:1347-1364, the two [Some("s")] arms *)
Definition parse_object_s (s : smoothing_state) : M smoothing_state :=
  match smoothing_groups s with
  | [] =>
      '(_, smoothing_groups') <- parse_smoothing_group (smoothing_groups s) ;;
      ret (mkSmoothingState (smoothing_group_entry_table s) smoothing_groups'
             (min_element_smoothing_group_index s) (max_element_smoothing_group_index s) 0)
  | _ =>
      let table := smoothing_group_entry_table s ++
        [((min_element_smoothing_group_index s, max_element_smoothing_group_index s),
          smoothing_group_index s)] in
      '(_, smoothing_groups') <- parse_smoothing_group (smoothing_groups s) ;;
      ret (mkSmoothingState table smoothing_groups'
             (max_element_smoothing_group_index s) (max_element_smoothing_group_index s)
             (smoothing_group_index s + 1))
  end.

(** obj.rs:1365-1388, the [Some("usemtl")] arm *)
Definition parse_object_usemtl (m : material_state) : M material_state :=
  let table :=
    if min_element_material_name_index m =? max_element_material_name_index m
    then material_name_entry_table m
    else material_name_entry_table m ++
           [((min_element_material_name_index m, max_element_material_name_index m),
             material_name_index m)] in
  '(material_names', material_name_index') <-
    match material_names m with
    | [] =>
        '(_, names) <- parse_material_name (material_names m) ;;
        ret (names, material_name_index m)
    | _ =>
        '(_, names) <- parse_material_name (material_names m) ;;
        ret (names, material_name_index m + 1)
    end ;;
  ret (mkMaterialState table material_names'
         (max_element_material_name_index m) (max_element_material_name_index m)
         material_name_index').

(** obj.rs:1389-1393, the [Some("v")] arm *)
Definition parse_object_v (st : object_state) : M object_state :=
  v <- parse_vertex ;;
  let d := os_data st in
  let r := os_ranges st in
  ret (set_ranges
         (set_data st (mkGeometryData (vertices d ++ [v]) (texture_vertices d)
                                      (normal_vertices d) (elements d)))
         (mkIndexRanges (min_vertex_index r) (max_vertex_index r + 1)
                        (min_texture_index r) (max_texture_index r)
                        (min_normal_index r) (max_normal_index r))).

(** obj.rs:1394-1398, the [Some("vt")] arm *)
Definition parse_object_vt (st : object_state) : M object_state :=
  v <- parse_texture_vertex ;;
  let d := os_data st in
  let r := os_ranges st in
  ret (set_ranges
         (set_data st (mkGeometryData (vertices d) (texture_vertices d ++ [v])
                                      (normal_vertices d) (elements d)))
         (mkIndexRanges (min_vertex_index r) (max_vertex_index r)
                        (min_texture_index r) (max_texture_index r + 1)
                        (min_normal_index r) (max_normal_index r))).

(** obj.rs:1399-1403, the [Some("vn")] arm *)
Definition parse_object_vn (st : object_state) : M object_state :=
  v <- parse_normal_vertex ;;
  let d := os_data st in
  let r := os_ranges st in
  ret (set_ranges
         (set_data st (mkGeometryData (vertices d) (texture_vertices d)
                                      (normal_vertices d ++ [v]) (elements d)))
         (mkIndexRanges (min_vertex_index r) (max_vertex_index r)
                        (min_texture_index r) (max_texture_index r)
                        (min_normal_index r) (max_normal_index r + 1))).

(** obj.rs:1404-1430, the [Some("p") | Some("l") | Some("f")] arm *)
Definition parse_object_element (st : object_state) : M object_state :=
  let g := os_groups st in
  let g := match groups g with
           | [] => mkGroupState (group_entry_table g) (groups g ++ [group_default])
                     (min_element_group_index g) (max_element_group_index g) 0 1
           | _ => g
           end in
  let s := os_smoothing st in
  let s := match smoothing_groups s with
           | [] => mkSmoothingState (smoothing_group_entry_table s)
                     (smoothing_groups s ++ [smoothing_group_default])
                     (min_element_smoothing_group_index s)
                     (max_element_smoothing_group_index s) 0
           | _ => s
           end in
  let m := os_material st in
  let m := match material_names m with
           | [] => mkMaterialState (material_name_entry_table m) (material_names m ++ [None])
                     (min_element_material_name_index m) (max_element_material_name_index m) 0
           | _ => m
           end in
  let d := os_data st in
  let r := os_ranges st in
  '(elements_parsed, elements') <-
    parse_elements (elements d) (vertex_range r) (texture_range r) (normal_range r) ;;
  ret (mkObjectState
         (mkGeometryData (vertices d) (texture_vertices d) (normal_vertices d) elements')
         (mkGroupState (group_entry_table g) (groups g)
            (min_element_group_index g) (max_element_group_index g + elements_parsed)
            (min_group_index g) (max_group_index g))
         (mkSmoothingState (smoothing_group_entry_table s) (smoothing_groups s)
            (min_element_smoothing_group_index s)
            (max_element_smoothing_group_index s + elements_parsed)
            (smoothing_group_index s))
         (mkMaterialState (material_name_entry_table m) (material_names m)
            (min_element_material_name_index m)
            (max_element_material_name_index m + elements_parsed)
            (material_name_index m))
         r).

(** obj.rs:1434-1455, the [Some("o") | None] arm *)
Definition parse_object_end (st : object_state) : object_state :=
  let g := os_groups st in
  let s := os_smoothing st in
  let m := os_material st in
  mkObjectState (os_data st)
    (mkGroupState
       (group_entry_table g ++ [((min_element_group_index g, max_element_group_index g),
                                 (min_group_index g, max_group_index g))])
       (groups g) (min_element_group_index g) (max_element_group_index g)
       (min_group_index g) (max_group_index g))
    (mkSmoothingState
       (smoothing_group_entry_table s ++
          [((min_element_smoothing_group_index s, max_element_smoothing_group_index s),
            smoothing_group_index s)])
       (smoothing_groups s) (min_element_smoothing_group_index s)
       (max_element_smoothing_group_index s) (smoothing_group_index s))
    (mkMaterialState
       (material_name_entry_table m ++
          [((min_element_material_name_index m, max_element_material_name_index m),
            material_name_index m)])
       (material_names m) (min_element_material_name_index m)
       (max_element_material_name_index m) (material_name_index m))
    (os_ranges st).

(** obj.rs:1329-1463, one round of the [loop] *)
Definition parse_object_body (st : object_state) : M (step object_state object_state) :=
  t <- peek ;;
  if is_tok t "g" then
    g <- parse_object_g (os_groups st) ;; ret (Continue (set_groups st g))
  else if is_tok t "s" then
    s <- parse_object_s (os_smoothing st) ;; ret (Continue (set_smoothing st s))
  else if is_tok t "usemtl" then
    m <- parse_object_usemtl (os_material st) ;; ret (Continue (set_material st m))
  else if is_tok t "v" then st' <- parse_object_v st ;; ret (Continue st')
  else if is_tok t "vt" then st' <- parse_object_vt st ;; ret (Continue st')
  else if is_tok t "vn" then st' <- parse_object_vn st ;; ret (Continue st')
  else if is_tok t "p" || is_tok t "l" || is_tok t "f" then
    st' <- parse_object_element st ;; ret (Continue st')
  else if is_nl t then skip_one_or_more_newlines ;;; ret (Continue st)
  else
    match t with
    | None => ret (Break (parse_object_end st))
    | Some other_st =>
        if bytes_eqb other_st (lit "o") then ret (Break (parse_object_end st))
        else
          error InvalidObjectStatement
            (lit "Unsupported or invalid object statement `" ++ other_st ++ lit "`.")
    end.

(** obj.rs:1292-1491, [Parser::parse_object].  Also returns the new values of
    the [&mut usize] parameters. *)
Definition parse_object (r : index_ranges) : M (object * index_ranges) :=
  object_name <- parse_object_name ;;
  st <- loop fuel parse_object_body (object_state_new r) ;;
  shape_entries <- parse_shape_entries (elements (os_data st))
                     (group_entry_table (os_groups st))
                     (smoothing_group_entry_table (os_smoothing st)) ;;
  geometries <- parse_geometries (material_name_entry_table (os_material st))
                  (material_names (os_material st)) ;;
  let d := os_data st in
  let r := os_ranges st in
  ret (mkObject object_name (vertices d) (texture_vertices d) (normal_vertices d)
         (groups (os_groups st)) (smoothing_groups (os_smoothing st)) (elements d)
         shape_entries geometries,
       mkIndexRanges (min_vertex_index r + length (vertices d)) (max_vertex_index r)
                     (min_texture_index r + length (texture_vertices d)) (max_texture_index r)
                     (min_normal_index r + length (normal_vertices d)) (max_normal_index r)).

(** obj.rs:1494-1518, [Parser::parse_objects] *)
Definition parse_objects : M (list object) :=
  skip_zero_or_more_newlines fuel ;;;
  loop fuel (fun '(result, r) =>
    t <- peek ;;
    match t with
    | Some _ =>
        '(o, r') <- parse_object r ;;
        skip_zero_or_more_newlines fuel ;;;
        ret (Continue (result ++ [o], r'))
    | None => ret (Break result)
    end) ([], mkIndexRanges 0 0 0 0 0 0).

(** obj.rs:1521-1538, [Parser::parse_material_library_line] *)
Definition parse_material_library_line (material_libraries : list bytes)
  : M (nat * list bytes) :=
  expect_tag (lit "mtllib") ;;;
  names_until_newline material_libraries.

(** obj.rs:1541-1550, [Parser::parse_material_libraries] *)
Definition parse_material_libraries : M (list bytes) :=
  skip_zero_or_more_newlines fuel ;;;
  loop fuel (fun material_libraries =>
    t <- peek ;;
    if is_tok t "mtllib" then
      '(_, material_libraries') <- parse_material_library_line material_libraries ;;
      skip_zero_or_more_newlines fuel ;;;
      ret (Continue material_libraries')
    else ret (Break material_libraries)) [].

(** obj.rs:1690-1698, [Parser::parse_objset] *)
Definition parse_objset : M object_set :=
  libs <- parse_material_libraries ;;
  objs <- parse_objects ;;
  ret (mkObjectSet libs objs).

End Parser.

(** A loop of the parser takes at most one round per token plus one, and there
    are at most as many tokens as bytes (C01 proves that this is enough). *)
Definition fuel_for (input : bytes) : nat := Datatypes.S (length input).

(** obj.rs:111-113, [parse] *)
Definition parse (dbg : bool) (input : bytes) : outcome (parse_error error_kind) object_set :=
  fst (parse_objset dbg (fuel_for input) (parser_new input)).
