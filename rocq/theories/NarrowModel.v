(** The parser of src/obj.rs where [usize] and [isize] have [bits] bits.

    ObjModel.v has the 64-bit ones.  Here is the same code with the additions,
    casts, subtractions and the reading of whole numbers of a platform with
    words of [bits] bits; the functions that have none of these are those of
    ObjModel.v.  The counters of the lexer are in NarrowLexerModel.v, and that a text has at most [isize::MAX]
    bytes is a hypothesis of the theorems. *)
From Verif Require Export UsizeModel.
Local Open Scope list_scope.

(** The bounds of [isize] and [usize]. *)
Definition int_min (bits : Z) : Z := (- 2 ^ (bits - 1))%Z.
Definition int_max (bits : Z) : Z := (2 ^ (bits - 1) - 1)%Z.
Definition word_max (bits : Z) : Z := (2 ^ bits - 1)%Z.

Definition in_int (bits z : Z) : bool := ((int_min bits <=? z) && (z <=? int_max bits))%Z.

(** Two's complement wrap-around to [isize]. *)
Definition wrap_int (bits z : Z) : Z := ((z + 2 ^ (bits - 1)) mod 2 ^ bits - 2 ^ (bits - 1))%Z.

(** [str::parse::<isize>] and [str::parse::<usize>] (obj.rs:781, 913, 1002 and
    1169): the same texts are numbers on every platform, as far as they are in
    range.  (At most 64 bits.) *)
Definition narrow_isize (bits : Z) (s : bytes) : option Z :=
  match RustStd.parse_isize s with
  | Some z => if in_int bits z then Some z else None
  | None => None
  end.

Definition narrow_usize (bits : Z) (s : bytes) : option N :=
  match RustStd.parse_usize s with
  | Some n => if (Z.of_N n <=? word_max bits)%Z then Some n else None
  | None => None
  end.

(** [n as isize] *)
Definition cast_isize (bits : Z) (n : nat) : Z := wrap_int bits (Z.of_nat n).

(** [z as usize] *)
Definition cast_usize (bits : Z) (z : Z) : nat := Z.to_nat (z mod 2 ^ bits).

Section Parser.
Context {S : token_source}.
Local Notation M := (M S error_kind).
Context (bits : Z) (dbg : bool) (fuel : nat).

(** [a + b] on [usize]: a panic in a debug build if it overflows, and wrapping in
    a release build. *)
Definition narrow_add (a b : nat) : M nat :=
  if (Z.of_nat (a + b) <=? word_max bits)%Z then ret (a + b)
  else if dbg then panics PanicOverflow
  else ret (Z.to_nat (Z.of_nat (a + b) mod 2 ^ bits)).

(** [a - b] on [isize] (obj.rs:884 and 886). *)
Definition narrow_sub (a b : Z) : M Z :=
  if in_int bits (a - b) then ret (a - b)%Z
  else if dbg then panics PanicOverflow
  else ret (wrap_int bits (a - b)).

(** obj.rs:779-788, [Parser::parse_isize] *)
Definition narrow_parse_isize : M Z :=
  st <- next_string ;;
  match narrow_isize bits st with
  | Some val => ret val
  | None => error_expected_integer st
  end.

(** obj.rs:1161-1189, [Parser::parse_smoothing_group] *)
Definition narrow_parse_smoothing_group (smoothing_groups : list smoothing_group)
  : M (nat * list smoothing_group) :=
  expect_tag (lit "s") ;;;
  t <- next ;;
  match t with
  | Some name =>
      if bytes_eqb name (lit "off") then ret (1, smoothing_groups ++ [0%N])
      else match narrow_usize bits name with
           | Some number => ret (1, smoothing_groups ++ [number])
           | None =>
               error SmoothingGroupNameMustBeOffOrInteger
                 (lit "A smoothing group name must either be `off`, which denotes that an object has no smoothing groups, or an integer. The parser got `"
                    ++ name ++ lit "` instead.")
           end
  | None =>
      error SmoothingGroupDeclarationHasNoName
        (lit "Got a smoothing group declaration without a smoothing group name.")
  end.

(** obj.rs:677-684, [triangulate] *)
Definition narrow_triangulate (elements : list element) (vtn_indices : list vtn_index)
  : M (nat * list element) :=
  vertex0 <- index vtn_indices 0 ;;
  n <- len_minus dbg vtn_indices 2 ;;
  elements' <- for_each (range 0 n) (fun elements i =>
      i1 <- narrow_add i 1 ;;
      v1 <- index vtn_indices i1 ;;
      i2 <- narrow_add i 2 ;;
      v2 <- index vtn_indices i2 ;;
      ret (elements ++ [Face vertex0 v1 v2])) elements ;;
  ret (n, elements').

(** obj.rs:881-901, [Parser::calculate_index] *)
Definition narrow_calculate_index (value_range : nat * nat) (parsed_value : Z) : M nat :=
  let '(min_value, max_value) := value_range in
  actual_value <- (if (parsed_value <=? 0)%Z
                   then narrow_sub (cast_isize bits max_value) parsed_value
                   else narrow_sub parsed_value 1) ;;
  if (cast_isize bits min_value <=? actual_value)%Z && (actual_value <? cast_isize bits max_value)%Z then
    debug_assert dbg (0 <=? actual_value)%Z ;;;
    difference <- narrow_sub actual_value (cast_isize bits min_value) ;;
    ret (cast_usize bits difference)
  else
    error VTNIndexOutOfRange
      (lit "Expected index in range [" ++ show_nat min_value ++ lit ", " ++ show_nat max_value
         ++ lit "), but got " ++ show_Z actual_value ++ lit ".").

(** obj.rs:911-924, the closure [process_split] *)
Definition narrow_process_split (split : bytes) (value_range : nat * nat) : M (option nat) :=
  match split with
  | [] => ret None
  | _ =>
      match narrow_isize bits split with
      | Some parsed_value =>
          i <- narrow_calculate_index value_range parsed_value ;;
          ret (Some i)
      | None => error_expected_integer split
      end
  end.

(** obj.rs:927-938 *)
Definition narrow_process_next (splits : list bytes) (value_range : nat * nat)
  : M (option nat * list bytes) :=
  match splits with
  | [] => ret (None, [])
  | s :: splits' =>
      r <- narrow_process_split s value_range ;;
      ret (r, splits')
  end.

(** obj.rs:904-962, [Parser::parse_vtn_index] *)
Definition narrow_parse_vtn_index
    (vertex_index_range texture_index_range normal_index_range : nat * nat) : M vtn_index :=
  st <- next_string ;;
  let splits := split_on "/"%char st in
  '(split1, splits) <- narrow_process_next splits vertex_index_range ;;
  '(split2, splits) <- narrow_process_next splits texture_index_range ;;
  '(split3, splits) <- narrow_process_next splits normal_index_range ;;
  let expected_vtn_index : M vtn_index :=
    error ExpectedVTNIndex
      (lit "Expected a `vertex/texture/normal` index but got `" ++ st ++ lit "` instead.") in
  if match split1 with None => true | Some _ => false end
     || match splits with [] => false | _ :: _ => true end
  then expected_vtn_index
  else
    match split1, split2, split3 with
    | Some v, None, None => ret (V v)
    | Some v, None, Some vn => ret (VN v vn)
    | Some v, Some vt, None => ret (VT v vt)
    | Some v, Some vt, Some vn => ret (VTN v vt vn)
    | _, _, _ => expected_vtn_index
    end.

(** obj.rs:967-983, [Parser::parse_vtn_indices] *)
Definition narrow_parse_vtn_indices (vtn_indices : list vtn_index)
    (vertex_index_range texture_index_range normal_index_range : nat * nat)
  : M (nat * list vtn_index) :=
  loop fuel (fun '(indices_parsed, vtn_indices) =>
    r <- catch (narrow_parse_vtn_index vertex_index_range texture_index_range normal_index_range) ;;
    match r with
    | inl vtn_index =>
        indices_parsed' <- narrow_add indices_parsed 1 ;;
        ret (Continue (indices_parsed', vtn_indices ++ [vtn_index]))
    | inr _ => ret (Break (indices_parsed, vtn_indices))
    end) (0, vtn_indices).

(** obj.rs:989-1020, [Parser::parse_point] *)
Definition narrow_parse_point (elements : list element) (vertex_index_range : nat * nat)
  : M (nat * list element) :=
  expect_tag (lit "p") ;;;
  parsed_value <- narrow_parse_isize ;;
  v_index <- narrow_calculate_index vertex_index_range parsed_value ;;
  loop fuel (fun '(elements_parsed, elements) =>
    t <- next ;;
    match t with
    | Some st =>
        if negb (bytes_eqb st nl) then
          match narrow_isize bits st with
          | Some val =>
              v_index <- narrow_calculate_index vertex_index_range val ;;
              elements_parsed' <- narrow_add elements_parsed 1 ;;
              ret (Continue (elements_parsed', elements ++ [Point (V v_index)]))
          | None => error_expected_integer st
          end
        else ret (Break (elements_parsed, elements))
    | None => ret (Break (elements_parsed, elements))
    end) (1, elements ++ [Point (V v_index)]).

(** obj.rs:1026-1066, [Parser::parse_line] *)
Definition narrow_parse_line (elements : list element)
    (vertex_index_range texture_index_range normal_index_range : nat * nat)
  : M (nat * list element) :=
  expect_tag (lit "l") ;;;
  v1 <- narrow_parse_vtn_index vertex_index_range texture_index_range normal_index_range ;;
  v2 <- narrow_parse_vtn_index vertex_index_range texture_index_range normal_index_range ;;
  '(_, vtn_indices) <- narrow_parse_vtn_indices [v1; v2]
                         vertex_index_range texture_index_range normal_index_range ;;
  ok <- verify_vtn_indices vtn_indices ;;
  if negb ok then
    error EveryVTNIndexMustHaveTheSameFormForAGivenElement
      (lit "Every VTN index for a line must have the same form.")
  else
    n <- len_minus dbg vtn_indices 1 ;;
    elements' <- for_each (range 0 n) (fun elements i =>
        a <- index vtn_indices i ;;
        i1 <- narrow_add i 1 ;;
        b <- index vtn_indices i1 ;;
        ret (elements ++ [Line a b])) elements ;;
    ret (n, elements').

(** obj.rs:1076-1112, [Parser::parse_face] *)
Definition narrow_parse_face (elements : list element)
    (vertex_index_range texture_index_range normal_index_range : nat * nat)
  : M (nat * list element) :=
  expect_tag (lit "f") ;;;
  '(_, vtn_indices) <- narrow_parse_vtn_indices []
                         vertex_index_range texture_index_range normal_index_range ;;
  if length vtn_indices <? 3 then
    error EveryFaceElementMustHaveAtLeastThreeVertices
      (lit "A face primitive must have at least three vertices.")
  else
    ok <- verify_vtn_indices vtn_indices ;;
    if negb ok then
      error EveryVTNIndexMustHaveTheSameFormForAGivenElement
        (lit "Every VTN index for a face must have the same form.")
    else narrow_triangulate elements vtn_indices.

(** obj.rs:1115-1141, [Parser::parse_elements] *)
Definition narrow_parse_elements (elements : list element)
    (vertex_index_range texture_index_range normal_index_range : nat * nat)
  : M (nat * list element) :=
  t <- peek ;;
  if is_tok t "p" then narrow_parse_point elements vertex_index_range
  else if is_tok t "l" then
    narrow_parse_line elements vertex_index_range texture_index_range normal_index_range
  else if is_tok t "f" then
    narrow_parse_face elements vertex_index_range texture_index_range normal_index_range
  else
    error ElementMustBeAPointLineOrFace
      (lit "An element must be a point (`p`), line (`l`), or face (`f`).").

(** obj.rs:1147-1155 and 1527-1535 *)
Definition narrow_names_until_newline (names : list bytes) : M (nat * list bytes) :=
  loop fuel (fun '(parsed, names) =>
    t <- next ;;
    match t with
    | Some name =>
        if negb (bytes_eqb name nl)
        then parsed' <- narrow_add parsed 1 ;; ret (Continue (parsed', names ++ [name]))
        else ret (Break (parsed, names))
    | None => ret (Break (parsed, names))
    end) (0, names).

(** obj.rs:1144-1158, [Parser::parse_groups] *)
Definition narrow_parse_groups (groups : list group) : M (nat * list group) :=
  expect_tag (lit "g") ;;;
  narrow_names_until_newline groups.

(** obj.rs:1331-1346, the two [Some("g")] arms *)
Definition narrow_parse_object_g (g : group_state) : M group_state :=
  match groups g with
  | [] =>
      '(amount_parsed, groups') <- narrow_parse_groups (groups g) ;;
      max_group_index' <- narrow_add (max_group_index g) amount_parsed ;;
      ret (mkGroupState (group_entry_table g) groups'
             (min_element_group_index g) (max_element_group_index g)
             (min_group_index g) max_group_index')
  | _ =>
      let table := group_entry_table g ++
        [((min_element_group_index g, max_element_group_index g),
          (min_group_index g, max_group_index g))] in
      '(amount_parsed, groups') <- narrow_parse_groups (groups g) ;;
      max_group_index' <- narrow_add (max_group_index g) amount_parsed ;;
      ret (mkGroupState table groups'
             (max_element_group_index g) (max_element_group_index g)
             (max_group_index g) max_group_index')
  end.

(** obj.rs:1347-1364, the two [Some("s")] arms *)
Definition narrow_parse_object_s (s : smoothing_state) : M smoothing_state :=
  match smoothing_groups s with
  | [] =>
      '(_, smoothing_groups') <- narrow_parse_smoothing_group (smoothing_groups s) ;;
      ret (mkSmoothingState (smoothing_group_entry_table s) smoothing_groups'
             (min_element_smoothing_group_index s) (max_element_smoothing_group_index s) 0)
  | _ =>
      let table := smoothing_group_entry_table s ++
        [((min_element_smoothing_group_index s, max_element_smoothing_group_index s),
          smoothing_group_index s)] in
      '(_, smoothing_groups') <- narrow_parse_smoothing_group (smoothing_groups s) ;;
      smoothing_group_index' <- narrow_add (smoothing_group_index s) 1 ;;
      ret (mkSmoothingState table smoothing_groups'
             (max_element_smoothing_group_index s) (max_element_smoothing_group_index s)
             smoothing_group_index')
  end.

(** obj.rs:1365-1388, the [Some("usemtl")] arm *)
Definition narrow_parse_object_usemtl (m : material_state) : M material_state :=
  let table :=
    if min_element_material_name_index m =? max_element_material_name_index m
    then material_name_entry_table m
    else material_name_entry_table m ++
           [((min_element_material_name_index m, max_element_material_name_index m),
             material_name_index m)] in
  '(material_names', material_name_index') <-
    match material_names m with
    | [] =>
        '(_, names) <- parse_material_name (material_names m) ;;
        ret (names, material_name_index m)
    | _ =>
        '(_, names) <- parse_material_name (material_names m) ;;
        material_name_index' <- narrow_add (material_name_index m) 1 ;;
        ret (names, material_name_index')
    end ;;
  ret (mkMaterialState table material_names'
         (max_element_material_name_index m) (max_element_material_name_index m)
         material_name_index').

(** obj.rs:1389-1393, the [Some("v")] arm *)
Definition narrow_parse_object_v (st : object_state) : M object_state :=
  v <- parse_vertex ;;
  let d := os_data st in
  let r := os_ranges st in
  max_vertex_index' <- narrow_add (max_vertex_index r) 1 ;;
  ret (set_ranges
         (set_data st (mkGeometryData (vertices d ++ [v]) (texture_vertices d)
                                      (normal_vertices d) (elements d)))
         (mkIndexRanges (min_vertex_index r) max_vertex_index'
                        (min_texture_index r) (max_texture_index r)
                        (min_normal_index r) (max_normal_index r))).

(** obj.rs:1394-1398, the [Some("vt")] arm *)
Definition narrow_parse_object_vt (st : object_state) : M object_state :=
  v <- parse_texture_vertex ;;
  let d := os_data st in
  let r := os_ranges st in
  max_texture_index' <- narrow_add (max_texture_index r) 1 ;;
  ret (set_ranges
         (set_data st (mkGeometryData (vertices d) (texture_vertices d ++ [v])
                                      (normal_vertices d) (elements d)))
         (mkIndexRanges (min_vertex_index r) (max_vertex_index r)
                        (min_texture_index r) max_texture_index'
                        (min_normal_index r) (max_normal_index r))).

(** obj.rs:1399-1403, the [Some("vn")] arm *)
Definition narrow_parse_object_vn (st : object_state) : M object_state :=
  v <- parse_normal_vertex ;;
  let d := os_data st in
  let r := os_ranges st in
  max_normal_index' <- narrow_add (max_normal_index r) 1 ;;
  ret (set_ranges
         (set_data st (mkGeometryData (vertices d) (texture_vertices d)
                                      (normal_vertices d ++ [v]) (elements d)))
         (mkIndexRanges (min_vertex_index r) (max_vertex_index r)
                        (min_texture_index r) (max_texture_index r)
                        (min_normal_index r) max_normal_index')).

(** obj.rs:1404-1430, the [Some("p") | Some("l") | Some("f")] arm *)
Definition narrow_parse_object_element (st : object_state) : M object_state :=
  let g := os_groups st in
  let g := match groups g with
           | [] => mkGroupState (group_entry_table g) (groups g ++ [group_default])
                     (min_element_group_index g) (max_element_group_index g) 0 1
           | _ => g
           end in
  let s := os_smoothing st in
  let s := match smoothing_groups s with
           | [] => mkSmoothingState (smoothing_group_entry_table s)
                     (smoothing_groups s ++ [smoothing_group_default])
                     (min_element_smoothing_group_index s)
                     (max_element_smoothing_group_index s) 0
           | _ => s
           end in
  let m := os_material st in
  let m := match material_names m with
           | [] => mkMaterialState (material_name_entry_table m) (material_names m ++ [None])
                     (min_element_material_name_index m) (max_element_material_name_index m) 0
           | _ => m
           end in
  let d := os_data st in
  let r := os_ranges st in
  '(elements_parsed, elements') <-
    narrow_parse_elements (elements d) (vertex_range r) (texture_range r) (normal_range r) ;;
  max_element_group_index' <- narrow_add (max_element_group_index g) elements_parsed ;;
  max_element_smoothing_group_index' <-
    narrow_add (max_element_smoothing_group_index s) elements_parsed ;;
  max_element_material_name_index' <-
    narrow_add (max_element_material_name_index m) elements_parsed ;;
  ret (mkObjectState
         (mkGeometryData (vertices d) (texture_vertices d) (normal_vertices d) elements')
         (mkGroupState (group_entry_table g) (groups g)
            (min_element_group_index g) max_element_group_index'
            (min_group_index g) (max_group_index g))
         (mkSmoothingState (smoothing_group_entry_table s) (smoothing_groups s)
            (min_element_smoothing_group_index s) max_element_smoothing_group_index'
            (smoothing_group_index s))
         (mkMaterialState (material_name_entry_table m) (material_names m)
            (min_element_material_name_index m) max_element_material_name_index'
            (material_name_index m))
         r).

(** obj.rs:1329-1463, one round of the [loop] *)
Definition narrow_parse_object_body (st : object_state) : M (step object_state object_state) :=
  t <- peek ;;
  if is_tok t "g" then
    g <- narrow_parse_object_g (os_groups st) ;; ret (Continue (set_groups st g))
  else if is_tok t "s" then
    s <- narrow_parse_object_s (os_smoothing st) ;; ret (Continue (set_smoothing st s))
  else if is_tok t "usemtl" then
    m <- narrow_parse_object_usemtl (os_material st) ;; ret (Continue (set_material st m))
  else if is_tok t "v" then st' <- narrow_parse_object_v st ;; ret (Continue st')
  else if is_tok t "vt" then st' <- narrow_parse_object_vt st ;; ret (Continue st')
  else if is_tok t "vn" then st' <- narrow_parse_object_vn st ;; ret (Continue st')
  else if is_tok t "p" || is_tok t "l" || is_tok t "f" then
    st' <- narrow_parse_object_element st ;; ret (Continue st')
  else if is_nl t then skip_one_or_more_newlines fuel ;;; ret (Continue st)
  else
    match t with
    | None => ret (Break (parse_object_end st))
    | Some other_st =>
        if bytes_eqb other_st (lit "o") then ret (Break (parse_object_end st))
        else
          error InvalidObjectStatement
            (lit "Unsupported or invalid object statement `" ++ other_st ++ lit "`.")
    end.

(** obj.rs:1292-1491, [Parser::parse_object] *)
Definition narrow_parse_object (r : index_ranges) : M (object * index_ranges) :=
  object_name <- parse_object_name fuel ;;
  st <- loop fuel narrow_parse_object_body (object_state_new r) ;;
  shape_entries <- parse_shape_entries dbg (elements (os_data st))
                     (group_entry_table (os_groups st))
                     (smoothing_group_entry_table (os_smoothing st)) ;;
  geometries <- parse_geometries (material_name_entry_table (os_material st))
                  (material_names (os_material st)) ;;
  let d := os_data st in
  let r := os_ranges st in
  min_vertex_index' <- narrow_add (min_vertex_index r) (length (vertices d)) ;;
  min_texture_index' <- narrow_add (min_texture_index r) (length (texture_vertices d)) ;;
  min_normal_index' <- narrow_add (min_normal_index r) (length (normal_vertices d)) ;;
  ret (mkObject object_name (vertices d) (texture_vertices d) (normal_vertices d)
         (groups (os_groups st)) (smoothing_groups (os_smoothing st)) (elements d)
         shape_entries geometries,
       mkIndexRanges min_vertex_index' (max_vertex_index r)
                     min_texture_index' (max_texture_index r)
                     min_normal_index' (max_normal_index r)).

(** obj.rs:1494-1518, [Parser::parse_objects] *)
Definition narrow_parse_objects : M (list object) :=
  skip_zero_or_more_newlines fuel ;;;
  loop fuel (fun '(result, r) =>
    t <- peek ;;
    match t with
    | Some _ =>
        '(o, r') <- narrow_parse_object r ;;
        skip_zero_or_more_newlines fuel ;;;
        ret (Continue (result ++ [o], r'))
    | None => ret (Break result)
    end) ([], mkIndexRanges 0 0 0 0 0 0).

(** obj.rs:1521-1538, [Parser::parse_material_library_line] *)
Definition narrow_parse_material_library_line (material_libraries : list bytes)
  : M (nat * list bytes) :=
  expect_tag (lit "mtllib") ;;;
  narrow_names_until_newline material_libraries.

(** obj.rs:1541-1550, [Parser::parse_material_libraries] *)
Definition narrow_parse_material_libraries : M (list bytes) :=
  skip_zero_or_more_newlines fuel ;;;
  loop fuel (fun material_libraries =>
    t <- peek ;;
    if is_tok t "mtllib" then
      '(_, material_libraries') <- narrow_parse_material_library_line material_libraries ;;
      skip_zero_or_more_newlines fuel ;;;
      ret (Continue material_libraries')
    else ret (Break material_libraries)) [].

(** obj.rs:1690-1698, [Parser::parse_objset] *)
Definition narrow_parse_objset : M object_set :=
  libs <- narrow_parse_material_libraries ;;
  objs <- narrow_parse_objects ;;
  ret (mkObjectSet libs objs).

End Parser.

(** obj.rs:111-113, [parse] *)
Definition narrow_parse (bits : Z) (dbg : bool) (input : bytes) : outcome (parse_error error_kind) object_set :=
  fst (narrow_parse_objset bits dbg (fuel_for input) (parser_new input)).
