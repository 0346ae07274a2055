(** The counters of the parser as machine words.

    ObjModel.v and Lexer.v count with [nat].  Here is the same code with every
    [+] on [usize] of src/lexer.rs and src/obj.rs written as an addition that
    overflows, and every [as isize] as a cast that wraps; the functions that
    have neither are those of Lexer.v and ObjModel.v.  PropUsize.v proves that
    the two agree on every input that fits into memory. *)
From Verif Require Export ObjModel.
Local Open Scope list_scope.

(** [a + b] on [usize]: a panic in a debug build if it overflows ([None]), and
    wrapping in a release build. *)
Definition word_add (dbg : bool) (a b : nat) : option nat :=
  if (N.of_nat (a + b) <=? usize_max)%N then Some (a + b)
  else if dbg then None
  else Some (N.to_nat (N.of_nat (a + b) mod 2 ^ 64)).

(** * src/lexer.rs *)
Section Lexer.
Context (dbg : bool).

Local Notation "x <-? m ;; k" :=
  (match m with Some x => k | None => None end) (at level 61, m at next level, right associativity).
Local Notation "' p <-? m ;; k" :=
  (match m with Some p => k | None => None end)
  (at level 61, p pattern, m at next level, right associativity).

(** lexer.rs:48-56, [Lexer::advance] *)
Definition word_lexer_advance (lx : lexer) : option lexer :=
  line <-? match lexer_peek lx with
           | Some ch => if is_newline ch then word_add dbg (current_line_number lx) 1
                        else Some (current_line_number lx)
           | None => Some (current_line_number lx)
           end ;;
  position <-? word_add dbg (stream_position lx) 1 ;;
  Some (mkLexer line position (stream lx)).

(** lexer.rs:62-77, [Lexer::skip_while], by recursion on the unread part as in
    Lexer.v. *)
Fixpoint word_skip_while_loop (predicate : byte -> bool) (unread : bytes) (lx : lexer) (skipped : nat)
  : option (lexer * nat) :=
  match unread with
  | ch :: unread' =>
      if predicate ch
      then lx' <-? word_lexer_advance lx ;;
           skipped' <-? word_add dbg skipped 1 ;;
           word_skip_while_loop predicate unread' lx' skipped'
      else Some (lx, skipped)
  | [] => Some (lx, skipped)
  end.

Definition word_skip_while (predicate : byte -> bool) (lx : lexer) : option (lexer * nat) :=
  word_skip_while_loop predicate (skipn (stream_position lx) (stream lx)) lx 0.

(** lexer.rs:85-87, [Lexer::skip_unless] *)
Definition word_skip_unless (not_predicate : byte -> bool) (lx : lexer) : option (lexer * nat) :=
  word_skip_while (fun ch => negb (not_predicate ch)) lx.

(** lexer.rs:93-98, [Lexer::skip_comment] *)
Definition word_skip_comment (lx : lexer) : option (lexer * nat) :=
  match lexer_peek lx with
  | Some ch => if Ascii.eqb ch "#" then word_skip_unless is_newline lx else Some (lx, 0)
  | None => Some (lx, 0)
  end.

(** lexer.rs:110-131, [Lexer::next_token] *)
Definition word_lexer_next_token (lx : lexer) : option (option bytes * lexer) :=
  '(lx1, _) <-? word_skip_while is_whitespace lx ;;
  '(lx2, _) <-? word_skip_comment lx1 ;;
  let start_position := stream_position lx2 in
  match lexer_peek lx2 with
  | Some ch =>
      if is_newline ch then
        lx3 <-? word_lexer_advance lx2 ;;
        Some (slice_get (stream lx3) start_position (stream_position lx3), lx3)
      else
        '(lx3, skipped) <-?
          word_skip_unless (fun ch => is_whitespace_or_newline ch || Ascii.eqb ch "#") lx2 ;;
        if 0 <? skipped
        then Some (slice_get (stream lx3) start_position (stream_position lx3), lx3)
        else Some (None, lx3)
  | None => Some (None, lx2)
  end.

(** lexer.rs:164-172, [PeekableLexer::next_token] *)
Definition word_peekable_next (p : peekable_lexer) : option (option bytes * peekable_lexer) :=
  match cache p with
  | Some token => Some (token, mkPeekable (inner p) None)
  | None => '(t, lx) <-? word_lexer_next_token (inner p) ;; Some (t, mkPeekable lx None)
  end.

(** lexer.rs:178-190, [PeekableLexer::peek] *)
Definition word_peekable_peek (p : peekable_lexer) : option (option bytes * peekable_lexer) :=
  match cache p with
  | Some token => Some (token, p)
  | None => '(t, lx) <-? word_lexer_next_token (inner p) ;; Some (t, mkPeekable lx (Some t))
  end.

(** [Parser::next], obj.rs:718-727, mtl.rs:301-310 *)
Definition word_next (p : parser lexer_source) : option (option bytes * parser lexer_source) :=
  '(token, s) <-? word_peekable_next (lexer_state p) ;;
  line <-? match token with
           | Some val => if bytes_eqb val nl then word_add dbg (line_number p) 1 else Some (line_number p)
           | None => Some (line_number p)
           end ;;
  Some (token, mkParser (S := lexer_source) line s).

(** [Parser::peek], obj.rs:713-715, mtl.rs:296-298 *)
Definition word_peek (p : parser lexer_source) : option (option bytes * parser lexer_source) :=
  '(token, s) <-? word_peekable_peek (lexer_state p) ;;
  Some (token, mkParser (S := lexer_source) (line_number p) s).

End Lexer.

(** The states of a parser: the two parsers change their lexer and line number
    by [peek] and [next] only. *)
Inductive reached (input : bytes) : parser lexer_source -> Prop :=
| reached_new : reached input (parser_new input)
| reached_peek : forall p, reached input p -> reached input (snd (peek (K := Empty_set) p))
| reached_next : forall p, reached input p -> reached input (snd (next (K := Empty_set) p)).

(** * src/obj.rs *)

(** [n as isize] *)
Definition as_isize (n : nat) : Z := wrap_isize (Z.of_nat n).

(** [z as usize] *)
Definition as_usize (z : Z) : nat := Z.to_nat (z mod 2 ^ 64).

Section Parser.
Context {S : token_source}.
Local Notation M := (M S error_kind).
Context (dbg : bool) (fuel : nat).

Definition usize_add (a b : nat) : M nat :=
  match word_add dbg a b with
  | Some n => ret n
  | None => panics PanicOverflow
  end.

(** obj.rs:677-684, [triangulate] *)
Definition word_triangulate (elements : list element) (vtn_indices : list vtn_index)
  : M (nat * list element) :=
  vertex0 <- index vtn_indices 0 ;;
  n <- len_minus dbg vtn_indices 2 ;;
  elements' <- for_each (range 0 n) (fun elements i =>
      i1 <- usize_add i 1 ;;
      v1 <- index vtn_indices i1 ;;
      i2 <- usize_add i 2 ;;
      v2 <- index vtn_indices i2 ;;
      ret (elements ++ [Face vertex0 v1 v2])) elements ;;
  ret (n, elements').

(** obj.rs:881-901, [Parser::calculate_index] *)
Definition word_calculate_index (value_range : nat * nat) (parsed_value : Z) : M nat :=
  let '(min_value, max_value) := value_range in
  actual_value <- (if (parsed_value <=? 0)%Z
                   then isize_sub dbg (as_isize max_value) parsed_value
                   else isize_sub dbg parsed_value 1) ;;
  if (as_isize min_value <=? actual_value)%Z && (actual_value <? as_isize max_value)%Z then
    debug_assert dbg (0 <=? actual_value)%Z ;;;
    difference <- isize_sub dbg actual_value (as_isize min_value) ;;
    ret (as_usize difference)
  else
    error VTNIndexOutOfRange
      (lit "Expected index in range [" ++ show_nat min_value ++ lit ", " ++ show_nat max_value
         ++ lit "), but got " ++ show_Z actual_value ++ lit ".").

(** obj.rs:911-924, the closure [process_split] *)
Definition word_process_split (split : bytes) (value_range : nat * nat) : M (option nat) :=
  match split with
  | [] => ret None
  | _ =>
      match RustStd.parse_isize split with
      | Some parsed_value =>
          i <- word_calculate_index value_range parsed_value ;;
          ret (Some i)
      | None => error_expected_integer split
      end
  end.

(** obj.rs:927-938 *)
Definition word_process_next (splits : list bytes) (value_range : nat * nat)
  : M (option nat * list bytes) :=
  match splits with
  | [] => ret (None, [])
  | s :: splits' =>
      r <- word_process_split s value_range ;;
      ret (r, splits')
  end.

(** obj.rs:904-962, [Parser::parse_vtn_index] *)
Definition word_parse_vtn_index
    (vertex_index_range texture_index_range normal_index_range : nat * nat) : M vtn_index :=
  st <- next_string ;;
  let splits := split_on "/"%char st in
  '(split1, splits) <- word_process_next splits vertex_index_range ;;
  '(split2, splits) <- word_process_next splits texture_index_range ;;
  '(split3, splits) <- word_process_next splits normal_index_range ;;
  let expected_vtn_index : M vtn_index :=
    error ExpectedVTNIndex
      (lit "Expected a `vertex/texture/normal` index but got `" ++ st ++ lit "` instead.") in
  if match split1 with None => true | Some _ => false end
     || match splits with [] => false | _ :: _ => true end
  then expected_vtn_index
  else
    match split1, split2, split3 with
    | Some v, None, None => ret (V v)
    | Some v, None, Some vn => ret (VN v vn)
    | Some v, Some vt, None => ret (VT v vt)
    | Some v, Some vt, Some vn => ret (VTN v vt vn)
    | _, _, _ => expected_vtn_index
    end.

(** obj.rs:967-983, [Parser::parse_vtn_indices] *)
Definition word_parse_vtn_indices (vtn_indices : list vtn_index)
    (vertex_index_range texture_index_range normal_index_range : nat * nat)
  : M (nat * list vtn_index) :=
  loop fuel (fun '(indices_parsed, vtn_indices) =>
    r <- catch (word_parse_vtn_index vertex_index_range texture_index_range normal_index_range) ;;
    match r with
    | inl vtn_index =>
        indices_parsed' <- usize_add indices_parsed 1 ;;
        ret (Continue (indices_parsed', vtn_indices ++ [vtn_index]))
    | inr _ => ret (Break (indices_parsed, vtn_indices))
    end) (0, vtn_indices).

(** obj.rs:989-1020, [Parser::parse_point] *)
Definition word_parse_point (elements : list element) (vertex_index_range : nat * nat)
  : M (nat * list element) :=
  expect_tag (lit "p") ;;;
  parsed_value <- parse_isize ;;
  v_index <- word_calculate_index vertex_index_range parsed_value ;;
  loop fuel (fun '(elements_parsed, elements) =>
    t <- next ;;
    match t with
    | Some st =>
        if negb (bytes_eqb st nl) then
          match RustStd.parse_isize st with
          | Some val =>
              v_index <- word_calculate_index vertex_index_range val ;;
              elements_parsed' <- usize_add elements_parsed 1 ;;
              ret (Continue (elements_parsed', elements ++ [Point (V v_index)]))
          | None => error_expected_integer st
          end
        else ret (Break (elements_parsed, elements))
    | None => ret (Break (elements_parsed, elements))
    end) (1, elements ++ [Point (V v_index)]).

(** obj.rs:1026-1066, [Parser::parse_line] *)
Definition word_parse_line (elements : list element)
    (vertex_index_range texture_index_range normal_index_range : nat * nat)
  : M (nat * list element) :=
  expect_tag (lit "l") ;;;
  v1 <- word_parse_vtn_index vertex_index_range texture_index_range normal_index_range ;;
  v2 <- word_parse_vtn_index vertex_index_range texture_index_range normal_index_range ;;
  '(_, vtn_indices) <- word_parse_vtn_indices [v1; v2]
                         vertex_index_range texture_index_range normal_index_range ;;
  ok <- verify_vtn_indices vtn_indices ;;
  if negb ok then
    error EveryVTNIndexMustHaveTheSameFormForAGivenElement
      (lit "Every VTN index for a line must have the same form.")
  else
    n <- len_minus dbg vtn_indices 1 ;;
    elements' <- for_each (range 0 n) (fun elements i =>
        a <- index vtn_indices i ;;
        i1 <- usize_add i 1 ;;
        b <- index vtn_indices i1 ;;
        ret (elements ++ [Line a b])) elements ;;
    ret (n, elements').

(** obj.rs:1076-1112, [Parser::parse_face] *)
Definition word_parse_face (elements : list element)
    (vertex_index_range texture_index_range normal_index_range : nat * nat)
  : M (nat * list element) :=
  expect_tag (lit "f") ;;;
  '(_, vtn_indices) <- word_parse_vtn_indices []
                         vertex_index_range texture_index_range normal_index_range ;;
  if length vtn_indices <? 3 then
    error EveryFaceElementMustHaveAtLeastThreeVertices
      (lit "A face primitive must have at least three vertices.")
  else
    ok <- verify_vtn_indices vtn_indices ;;
    if negb ok then
      error EveryVTNIndexMustHaveTheSameFormForAGivenElement
        (lit "Every VTN index for a face must have the same form.")
    else word_triangulate elements vtn_indices.

(** obj.rs:1115-1141, [Parser::parse_elements] *)
Definition word_parse_elements (elements : list element)
    (vertex_index_range texture_index_range normal_index_range : nat * nat)
  : M (nat * list element) :=
  t <- peek ;;
  if is_tok t "p" then word_parse_point elements vertex_index_range
  else if is_tok t "l" then
    word_parse_line elements vertex_index_range texture_index_range normal_index_range
  else if is_tok t "f" then
    word_parse_face elements vertex_index_range texture_index_range normal_index_range
  else
    error ElementMustBeAPointLineOrFace
      (lit "An element must be a point (`p`), line (`l`), or face (`f`).").

(** obj.rs:1147-1155 and 1527-1535 *)
Definition word_names_until_newline (names : list bytes) : M (nat * list bytes) :=
  loop fuel (fun '(parsed, names) =>
    t <- next ;;
    match t with
    | Some name =>
        if negb (bytes_eqb name nl)
        then parsed' <- usize_add parsed 1 ;; ret (Continue (parsed', names ++ [name]))
        else ret (Break (parsed, names))
    | None => ret (Break (parsed, names))
    end) (0, names).

(** obj.rs:1144-1158, [Parser::parse_groups] *)
Definition word_parse_groups (groups : list group) : M (nat * list group) :=
  expect_tag (lit "g") ;;;
  word_names_until_newline groups.

(** obj.rs:1331-1346, the two [Some("g")] arms *)
Definition word_parse_object_g (g : group_state) : M group_state :=
  match groups g with
  | [] =>
      '(amount_parsed, groups') <- word_parse_groups (groups g) ;;
      max_group_index' <- usize_add (max_group_index g) amount_parsed ;;
      ret (mkGroupState (group_entry_table g) groups'
             (min_element_group_index g) (max_element_group_index g)
             (min_group_index g) max_group_index')
  | _ =>
      let table := group_entry_table g ++
        [((min_element_group_index g, max_element_group_index g),
          (min_group_index g, max_group_index g))] in
      '(amount_parsed, groups') <- word_parse_groups (groups g) ;;
      max_group_index' <- usize_add (max_group_index g) amount_parsed ;;
      ret (mkGroupState table groups'
             (max_element_group_index g) (max_element_group_index g)
             (max_group_index g) max_group_index')
  end.

(** obj.rs:1347-1364, the two [Some("s")] arms *)
Definition word_parse_object_s (s : smoothing_state) : M smoothing_state :=
  match smoothing_groups s with
  | [] =>
      '(_, smoothing_groups') <- parse_smoothing_group (smoothing_groups s) ;;
      ret (mkSmoothingState (smoothing_group_entry_table s) smoothing_groups'
             (min_element_smoothing_group_index s) (max_element_smoothing_group_index s) 0)
  | _ =>
      let table := smoothing_group_entry_table s ++
        [((min_element_smoothing_group_index s, max_element_smoothing_group_index s),
          smoothing_group_index s)] in
      '(_, smoothing_groups') <- parse_smoothing_group (smoothing_groups s) ;;
      smoothing_group_index' <- usize_add (smoothing_group_index s) 1 ;;
      ret (mkSmoothingState table smoothing_groups'
             (max_element_smoothing_group_index s) (max_element_smoothing_group_index s)
             smoothing_group_index')
  end.

(** obj.rs:1365-1388, the [Some("usemtl")] arm *)
Definition word_parse_object_usemtl (m : material_state) : M material_state :=
  let table :=
    if min_element_material_name_index m =? max_element_material_name_index m
    then material_name_entry_table m
    else material_name_entry_table m ++
           [((min_element_material_name_index m, max_element_material_name_index m),
             material_name_index m)] in
  '(material_names', material_name_index') <-
    match material_names m with
    | [] =>
        '(_, names) <- parse_material_name (material_names m) ;;
        ret (names, material_name_index m)
    | _ =>
        '(_, names) <- parse_material_name (material_names m) ;;
        material_name_index' <- usize_add (material_name_index m) 1 ;;
        ret (names, material_name_index')
    end ;;
  ret (mkMaterialState table material_names'
         (max_element_material_name_index m) (max_element_material_name_index m)
         material_name_index').

(** obj.rs:1389-1393, the [Some("v")] arm *)
Definition word_parse_object_v (st : object_state) : M object_state :=
  v <- parse_vertex ;;
  let d := os_data st in
  let r := os_ranges st in
  max_vertex_index' <- usize_add (max_vertex_index r) 1 ;;
  ret (set_ranges
         (set_data st (mkGeometryData (vertices d ++ [v]) (texture_vertices d)
                                      (normal_vertices d) (elements d)))
         (mkIndexRanges (min_vertex_index r) max_vertex_index'
                        (min_texture_index r) (max_texture_index r)
                        (min_normal_index r) (max_normal_index r))).

(** obj.rs:1394-1398, the [Some("vt")] arm *)
Definition word_parse_object_vt (st : object_state) : M object_state :=
  v <- parse_texture_vertex ;;
  let d := os_data st in
  let r := os_ranges st in
  max_texture_index' <- usize_add (max_texture_index r) 1 ;;
  ret (set_ranges
         (set_data st (mkGeometryData (vertices d) (texture_vertices d ++ [v])
                                      (normal_vertices d) (elements d)))
         (mkIndexRanges (min_vertex_index r) (max_vertex_index r)
                        (min_texture_index r) max_texture_index'
                        (min_normal_index r) (max_normal_index r))).

(** obj.rs:1399-1403, the [Some("vn")] arm *)
Definition word_parse_object_vn (st : object_state) : M object_state :=
  v <- parse_normal_vertex ;;
  let d := os_data st in
  let r := os_ranges st in
  max_normal_index' <- usize_add (max_normal_index r) 1 ;;
  ret (set_ranges
         (set_data st (mkGeometryData (vertices d) (texture_vertices d)
                                      (normal_vertices d ++ [v]) (elements d)))
         (mkIndexRanges (min_vertex_index r) (max_vertex_index r)
                        (min_texture_index r) (max_texture_index r)
                        (min_normal_index r) max_normal_index')).

(** obj.rs:1404-1430, the [Some("p") | Some("l") | Some("f")] arm *)
Definition word_parse_object_element (st : object_state) : M object_state :=
  let g := os_groups st in
  let g := match groups g with
           | [] => mkGroupState (group_entry_table g) (groups g ++ [group_default])
                     (min_element_group_index g) (max_element_group_index g) 0 1
           | _ => g
           end in
  let s := os_smoothing st in
  let s := match smoothing_groups s with
           | [] => mkSmoothingState (smoothing_group_entry_table s)
                     (smoothing_groups s ++ [smoothing_group_default])
                     (min_element_smoothing_group_index s)
                     (max_element_smoothing_group_index s) 0
           | _ => s
           end in
  let m := os_material st in
  let m := match material_names m with
           | [] => mkMaterialState (material_name_entry_table m) (material_names m ++ [None])
                     (min_element_material_name_index m) (max_element_material_name_index m) 0
           | _ => m
           end in
  let d := os_data st in
  let r := os_ranges st in
  '(elements_parsed, elements') <-
    word_parse_elements (elements d) (vertex_range r) (texture_range r) (normal_range r) ;;
  max_element_group_index' <- usize_add (max_element_group_index g) elements_parsed ;;
  max_element_smoothing_group_index' <-
    usize_add (max_element_smoothing_group_index s) elements_parsed ;;
  max_element_material_name_index' <-
    usize_add (max_element_material_name_index m) elements_parsed ;;
  ret (mkObjectState
         (mkGeometryData (vertices d) (texture_vertices d) (normal_vertices d) elements')
         (mkGroupState (group_entry_table g) (groups g)
            (min_element_group_index g) max_element_group_index'
            (min_group_index g) (max_group_index g))
         (mkSmoothingState (smoothing_group_entry_table s) (smoothing_groups s)
            (min_element_smoothing_group_index s) max_element_smoothing_group_index'
            (smoothing_group_index s))
         (mkMaterialState (material_name_entry_table m) (material_names m)
            (min_element_material_name_index m) max_element_material_name_index'
            (material_name_index m))
         r).

(** obj.rs:1329-1463, one round of the [loop] *)
Definition word_parse_object_body (st : object_state) : M (step object_state object_state) :=
  t <- peek ;;
  if is_tok t "g" then
    g <- word_parse_object_g (os_groups st) ;; ret (Continue (set_groups st g))
  else if is_tok t "s" then
    s <- word_parse_object_s (os_smoothing st) ;; ret (Continue (set_smoothing st s))
  else if is_tok t "usemtl" then
    m <- word_parse_object_usemtl (os_material st) ;; ret (Continue (set_material st m))
  else if is_tok t "v" then st' <- word_parse_object_v st ;; ret (Continue st')
  else if is_tok t "vt" then st' <- word_parse_object_vt st ;; ret (Continue st')
  else if is_tok t "vn" then st' <- word_parse_object_vn st ;; ret (Continue st')
  else if is_tok t "p" || is_tok t "l" || is_tok t "f" then
    st' <- word_parse_object_element st ;; ret (Continue st')
  else if is_nl t then skip_one_or_more_newlines fuel ;;; ret (Continue st)
  else
    match t with
    | None => ret (Break (parse_object_end st))
    | Some other_st =>
        if bytes_eqb other_st (lit "o") then ret (Break (parse_object_end st))
        else
          error InvalidObjectStatement
            (lit "Unsupported or invalid object statement `" ++ other_st ++ lit "`.")
    end.

(** obj.rs:1292-1491, [Parser::parse_object] *)
Definition word_parse_object (r : index_ranges) : M (object * index_ranges) :=
  object_name <- parse_object_name fuel ;;
  st <- loop fuel word_parse_object_body (object_state_new r) ;;
  shape_entries <- parse_shape_entries dbg (elements (os_data st))
                     (group_entry_table (os_groups st))
                     (smoothing_group_entry_table (os_smoothing st)) ;;
  geometries <- parse_geometries (material_name_entry_table (os_material st))
                  (material_names (os_material st)) ;;
  let d := os_data st in
  let r := os_ranges st in
  min_vertex_index' <- usize_add (min_vertex_index r) (length (vertices d)) ;;
  min_texture_index' <- usize_add (min_texture_index r) (length (texture_vertices d)) ;;
  min_normal_index' <- usize_add (min_normal_index r) (length (normal_vertices d)) ;;
  ret (mkObject object_name (vertices d) (texture_vertices d) (normal_vertices d)
         (groups (os_groups st)) (smoothing_groups (os_smoothing st)) (elements d)
         shape_entries geometries,
       mkIndexRanges min_vertex_index' (max_vertex_index r)
                     min_texture_index' (max_texture_index r)
                     min_normal_index' (max_normal_index r)).

(** obj.rs:1494-1518, [Parser::parse_objects] *)
Definition word_parse_objects : M (list object) :=
  skip_zero_or_more_newlines fuel ;;;
  loop fuel (fun '(result, r) =>
    t <- peek ;;
    match t with
    | Some _ =>
        '(o, r') <- word_parse_object r ;;
        skip_zero_or_more_newlines fuel ;;;
        ret (Continue (result ++ [o], r'))
    | None => ret (Break result)
    end) ([], mkIndexRanges 0 0 0 0 0 0).

(** obj.rs:1521-1538, [Parser::parse_material_library_line] *)
Definition word_parse_material_library_line (material_libraries : list bytes)
  : M (nat * list bytes) :=
  expect_tag (lit "mtllib") ;;;
  word_names_until_newline material_libraries.

(** obj.rs:1541-1550, [Parser::parse_material_libraries] *)
Definition word_parse_material_libraries : M (list bytes) :=
  skip_zero_or_more_newlines fuel ;;;
  loop fuel (fun material_libraries =>
    t <- peek ;;
    if is_tok t "mtllib" then
      '(_, material_libraries') <- word_parse_material_library_line material_libraries ;;
      skip_zero_or_more_newlines fuel ;;;
      ret (Continue material_libraries')
    else ret (Break material_libraries)) [].

(** obj.rs:1690-1698, [Parser::parse_objset] *)
Definition word_parse_objset : M object_set :=
  libs <- word_parse_material_libraries ;;
  objs <- word_parse_objects ;;
  ret (mkObjectSet libs objs).

End Parser.

(** obj.rs:111-113, [parse] *)
Definition word_parse (dbg : bool) (input : bytes) : outcome (parse_error error_kind) object_set :=
  fst (word_parse_objset dbg (fuel_for input) (parser_new input)).
