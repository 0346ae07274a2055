(** The polygonal part of docs/obj_spec.pdf, the copy of the format specification
    that comes with the crate, and what there is to see in a result.
    Independent of the parser model and of the reading of files in ObjSpec.v;
    of the latter, only the data types and the tokens of numbers are used. *)
From Verif Require Export BlankSpec ObjSpec ObjView.
Local Open Scope list_scope.

(** * Syntax *)

(** Page B1-16: [v], [v/vt], [v//vn] and [v/vt/vn].  Negative numbers count back
    from the element (page B1-15). *)
Record doc_ref := mkDocRef { dr_v : Z; dr_t : option Z; dr_n : option Z }.

Inductive doc_statement :=
| DocVertex (v : vertex)             (* page B1-7 *)
| DocTexture (v : texture_vertex)    (* B1-8 *)
| DocNormal (v : normal_vertex)      (* B1-8 *)
| DocPoint (ks : list Z)             (* B1-17 *)
| DocLine (rs : list doc_ref)        (* B1-17 *)
| DocFace (rs : list doc_ref)        (* B1-17 *)
| DocGroup (names : list bytes)      (* B1-41 *)
| DocSmooth (n : N)                  (* B1-41 *)
| DocObject (name : bytes)           (* B1-42 *)
| DocUse (material : bytes)          (* B1-51 *)
| DocLibrary (names : list bytes).   (* B1-51 *)

Definition integer_token (t : bytes) (k : Z) : Prop := RustStd.parse_isize t = Some k.

Inductive doc_ref_token : bytes -> doc_ref -> Prop :=
| token_v a v : integer_token a v -> doc_ref_token a (mkDocRef v None None)
| token_vt a b v t : integer_token a v -> integer_token b t ->
    doc_ref_token (a ++ lit "/" ++ b) (mkDocRef v (Some t) None)
| token_vn a c v n : integer_token a v -> integer_token c n ->
    doc_ref_token (a ++ lit "//" ++ c) (mkDocRef v None (Some n))
| token_vtn a b c v t n : integer_token a v -> integer_token b t -> integer_token c n ->
    doc_ref_token (a ++ lit "/" ++ b ++ lit "/" ++ c) (mkDocRef v (Some t) (Some n)).

(** The line of a statement.  The defaults (page B1-7 and B1-8) may be left out. *)
Inductive doc_line : doc_statement -> list bytes -> Prop :=
| line_v tx ty tz x y z :
    float_token tx x -> float_token ty y -> float_token tz z ->
    doc_line (DocVertex (mkVertex x y z f64_one)) [lit "v"; tx; ty; tz]
| line_v_weight tx ty tz tw x y z w :
    float_token tx x -> float_token ty y -> float_token tz z -> float_token tw w ->
    doc_line (DocVertex (mkVertex x y z w)) [lit "v"; tx; ty; tz; tw]
| line_vt_1 tu u : float_token tu u -> doc_line (DocTexture (mkTextureVertex u f64_zero f64_zero)) [lit "vt"; tu]
| line_vt_2 tu tv u v : float_token tu u -> float_token tv v ->
    doc_line (DocTexture (mkTextureVertex u v f64_zero)) [lit "vt"; tu; tv]
| line_vt_3 tu tv tw u v w : float_token tu u -> float_token tv v -> float_token tw w ->
    doc_line (DocTexture (mkTextureVertex u v w)) [lit "vt"; tu; tv; tw]
| line_vn tx ty tz x y z :
    float_token tx x -> float_token ty y -> float_token tz z ->
    doc_line (DocNormal (mkNormalVertex x y z)) [lit "vn"; tx; ty; tz]
| line_p toks ks : Forall2 integer_token toks ks -> doc_line (DocPoint ks) (lit "p" :: toks)
| line_l toks rs : Forall2 doc_ref_token toks rs -> doc_line (DocLine rs) (lit "l" :: toks)
| line_f toks rs : Forall2 doc_ref_token toks rs -> doc_line (DocFace rs) (lit "f" :: toks)
| line_g names : Forall word names -> doc_line (DocGroup names) (lit "g" :: names)
| line_s_off : doc_line (DocSmooth 0) [lit "s"; lit "off"]
| line_s t n : RustStd.parse_usize t = Some n -> doc_line (DocSmooth n) [lit "s"; t]
| line_o name : word name -> doc_line (DocObject name) [lit "o"; name]
| line_usemtl name : word name -> doc_line (DocUse name) [lit "usemtl"; name]
| line_mtllib names : Forall word names -> doc_line (DocLibrary names) (lit "mtllib" :: names).

(** [input] is a text of [d]: a line for each statement, and blank lines. *)
Definition obj_doc_text (input : bytes) (d : list doc_statement) : Prop :=
  exists ls lines, Forall2 doc_line d ls /\ with_blanks ls lines /\ tokenizes input (line_tokens lines).

(** Elements have enough references, of one form; a group statement has a name. *)
Definition doc_form (r : doc_ref) : bool * bool := (present (dr_t r), present (dr_n r)).

Definition obj_documented (s : doc_statement) : Prop :=
  match s with
  | DocPoint ks => ks <> []
  | DocLine rs => 2 <= length rs /\ (forall r r', In r rs -> In r' rs -> doc_form r = doc_form r') /\
      Forall (fun r => dr_n r = None) rs
  | DocFace rs => 3 <= length rs /\ forall r r', In r rs -> In r' rs -> doc_form r = doc_form r'
  | DocGroup names => names <> []
  | _ => True
  end.

(** * Meaning *)

(** Something to draw, and how. *)
Record drawing := mkDrawing {
  dr_shape : drawn vtn_triple;
  dr_groups : list bytes;
  dr_smoothing : N;
  dr_material : option bytes;
  dr_object : bytes
}.

(** What is known at some place of the file.  Grouping and attribute statements
    are state-setting (pages B1-40 and B1-48): they hold until the next such
    statement. *)
Record pen := mkPen {
  pen_v : list vertex;
  pen_t : list texture_vertex;
  pen_n : list normal_vertex;
  pen_groups : list bytes;
  pen_smoothing : N;
  pen_material : option bytes;
  pen_object : bytes
}.

Definition start : pen := mkPen [] [] [] [lit "default"] 0%N None [].

(** The document has no exception for [o].  With [keep = false], [o] sets the
    groups, the smoothing group and the material back. *)
Definition step (keep : bool) (p : pen) (s : doc_statement) : pen :=
  match s with
  | DocVertex v => mkPen (pen_v p ++ [v]) (pen_t p) (pen_n p) (pen_groups p) (pen_smoothing p) (pen_material p) (pen_object p)
  | DocTexture v => mkPen (pen_v p) (pen_t p ++ [v]) (pen_n p) (pen_groups p) (pen_smoothing p) (pen_material p) (pen_object p)
  | DocNormal v => mkPen (pen_v p) (pen_t p) (pen_n p ++ [v]) (pen_groups p) (pen_smoothing p) (pen_material p) (pen_object p)
  | DocGroup names => mkPen (pen_v p) (pen_t p) (pen_n p) names (pen_smoothing p) (pen_material p) (pen_object p)
  | DocSmooth n => mkPen (pen_v p) (pen_t p) (pen_n p) (pen_groups p) n (pen_material p) (pen_object p)
  | DocUse m => mkPen (pen_v p) (pen_t p) (pen_n p) (pen_groups p) (pen_smoothing p) (Some m) (pen_object p)
  | DocObject name =>
      if keep then mkPen (pen_v p) (pen_t p) (pen_n p) (pen_groups p) (pen_smoothing p) (pen_material p) name
      else mkPen (pen_v p) (pen_t p) (pen_n p) (pen_groups start) (pen_smoothing start) (pen_material start) name
  | _ => p
  end.

(** Number [k] of what has been declared so far: from the top if positive, from
    the element upwards if negative. *)
Definition numbered {A} (l : list A) (k : Z) : option A :=
  if (0 <? k)%Z then nth_error l (Z.to_nat (k - 1))
  else if (0 <=? Z.of_nat (length l) + k)%Z then nth_error l (Z.to_nat (Z.of_nat (length l) + k)) else None.

Definition look (p : pen) (r : doc_ref) : option vtn_triple :=
  match numbered (pen_v p) (dr_v r) with
  | None => None
  | Some v =>
      match dr_t r, dr_n r with
      | None, None => Some (TripleV v)
      | Some t, None => option_map (TripleVT v) (numbered (pen_t p) t)
      | None, Some n => option_map (TripleVN v) (numbered (pen_n p) n)
      | Some t, Some n =>
          match numbered (pen_t p) t, numbered (pen_n p) n with
          | Some vt, Some vn => Some (TripleVTN v vt vn)
          | _, _ => None
          end
      end
  end.

(** The points, the segments of a line and the triangles of a face. *)
Definition doc_shapes (s : doc_statement) : list (drawn doc_ref) :=
  match s with
  | DocPoint ks => map (fun k => DPoint (mkDocRef k None None)) ks
  | DocLine rs => map (fun '(a, b) => DLine a b) (pairs rs)
  | DocFace (a :: rs) => map (fun '(b, c) => DFace a b c) (pairs rs)
  | _ => []
  end.

Definition drawn_as (p : pen) (d : drawn doc_ref) (x : drawing) : Prop :=
  draw_map (look p) d = draw_map Some (dr_shape x) /\
  dr_groups x = pen_groups p /\ dr_smoothing x = pen_smoothing p /\ dr_material x = pen_material p /\ dr_object x = pen_object p.

(** All that is drawn by a file, in order. *)
Inductive picture (keep : bool) : pen -> list doc_statement -> list drawing -> Prop :=
| picture_end p : picture keep p [] []
| picture_more p s d xs out :
    Forall2 (drawn_as p) (doc_shapes s) xs -> picture keep (step keep p s) d out ->
    picture keep p (s :: d) (xs ++ out).

Definition doc_libraries (d : list doc_statement) : list bytes :=
  flat_map (fun s => match s with DocLibrary names => names | _ => [] end) d.

(** * Results *)

Section Shows.
Variable get : object -> vtn_index -> option vtn_triple.

(** What is to see of element [j] of an object. *)
Definition entry_shows (ob : object) (j : nat) (x : drawing) : Prop :=
  exists e se g,
    nth_error (element_set ob) j = Some e /\
    nth_error (shape_set ob) j = Some se /\ se_element se = j /\
    In g (geometry_set ob) /\ In j (shapes g) /\
    draw_map (get ob) (draw_element e) = draw_map Some (dr_shape x) /\
    map (nth_error (group_set ob)) (se_groups se) = map Some (dr_groups x) /\
    nth_error (smoothing_group_set ob) (se_smoothing_group se) = Some (dr_smoothing x) /\
    material_name g = dr_material x /\
    name ob = dr_object x.

Definition object_shows (ob : object) (xs : list drawing) : Prop :=
  Forall2 (entry_shows ob) (seq 0 (length (element_set ob))) xs.

Definition shows (set : object_set) (xs : list drawing) : Prop :=
  exists xss, Forall2 object_shows (objects set) xss /\ xs = concat xss.

End Shows.

(** * What the crate supports *)

(** The statements in front of the first [o], and the objects. *)
Fixpoint doc_objects (d : list doc_statement) : list doc_statement * list (bytes * list doc_statement) :=
  match d with
  | [] => ([], [])
  | DocObject name :: d' => let (body, os) := doc_objects d' in ([], (name, body) :: os)
  | s :: d' => let (body, os) := doc_objects d' in (s :: body, os)
  end.

(** An object has an element or a material. *)
Definition has_element (body : list doc_statement) : Prop :=
  exists s, In s body /\ (doc_shapes s <> [] \/ exists m, s = DocUse m).

(** [from] of a list of which [l] is declared so far belong to earlier objects:
    number [k] is one of the current object, counted from the top. *)
Definition own {A} (from l : list A) (k : Z) : Prop := (Z.of_nat (length from) < k <= Z.of_nat (length l))%Z.

Definition own_part {A} (from l : list A) (k : option Z) : Prop :=
  match k with Some k => own from l k | None => True end.

Definition own_ref (q p : pen) (r : doc_ref) : Prop :=
  own (pen_v q) (pen_v p) (dr_v r) /\ own_part (pen_t q) (pen_t p) (dr_t r) /\ own_part (pen_n q) (pen_n p) (dr_n r).

(** All references are to what has been declared in the same object, counted
    from the top. *)
Fixpoint own_refs (q p : pen) (d : list doc_statement) : Prop :=
  match d with
  | [] => True
  | s :: d' =>
      Forall (fun x => Forall (own_ref q p) (corners x)) (doc_shapes s) /\
      own_refs (match s with DocObject _ => p | _ => q end) (step false p s) d'
  end.

Definition not_library (s : doc_statement) : bool := match s with DocLibrary _ => false | _ => true end.

(** [mtllib] comes first, references are to the same object, and no object is
    empty. *)
Definition obj_supported (d : list doc_statement) : Prop :=
  (exists names b, d = map DocLibrary names ++ b /\ forallb not_library b = true) /\
  own_refs start start d /\
  let (body, os) := doc_objects (filter not_library d) in
  (body = [] \/ has_element body) /\ Forall (fun o => has_element (snd o)) os.

(** No state is carried over from one object to the next: in front of any [o]
    there is vertex data only. *)
Definition is_data (s : doc_statement) : Prop :=
  match s with DocVertex _ | DocTexture _ | DocNormal _ | DocLibrary _ | DocObject _ => True | _ => False end.

Definition one_object (d : list doc_statement) : Prop :=
  forall a name b, d = a ++ DocObject name :: b -> Forall is_data a.
