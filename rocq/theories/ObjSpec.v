(** What an OBJ text says.  Independent of the model: only the data types that
    [obj::parse] returns (ObjTypes.v) and the standard library's reading of
    numbers (RustStd.v) are used here. *)
From Verif Require Export TokenSpec ObjTypes.
Local Open Scope list_scope.

(** * Statements *)

(** A vertex reference as written: 1-based numbers of a vertex, and optionally
    of a texture vertex and of a normal. *)
Record reference := mkRef { ref_v : nat; ref_t : option nat; ref_n : option nat }.

Inductive statement :=
| SVertex (v : vertex)
| STexture (v : texture_vertex)
| SNormal (v : normal_vertex)
| SGroup (names : list bytes)
| SSmooth (n : N)
| SUse (material : bytes)
| SPoint (ks : list nat)
| SLine (rs : list reference)
| SFace (rs : list reference).

(** ** Tokens *)

Definition float_token (t : bytes) (x : f64) : Prop := RustStd.parse_f64 t = Some x.
Definition number_token (t : bytes) (k : nat) : Prop := RustStd.parse_isize t = Some (Z.of_nat k).

(** The text after a slash: absent or a number. *)
Inductive part_token : bytes -> option nat -> Prop :=
| part_absent : part_token [] None
| part_number t k : number_token t k -> part_token t (Some k).

Definition slash : bytes := lit "/".

Inductive ref_token : bytes -> reference -> Prop :=
| ref_1 a v : number_token a v -> ref_token a (mkRef v None None)
| ref_2 a b v vt : number_token a v -> part_token b vt ->
    ref_token (a ++ slash ++ b) (mkRef v vt None)
| ref_3 a b c v vt vn : number_token a v -> part_token b vt -> part_token c vn ->
    ref_token (a ++ slash ++ b ++ slash ++ c) (mkRef v vt vn).

Inductive smoothing_token : bytes -> N -> Prop :=
| smoothing_off : smoothing_token (lit "off") 0%N
| smoothing_number t n : RustStd.parse_usize t = Some n -> smoothing_token t n.

(** ** Numbering

    Vertices, texture vertices and normals are numbered from 1 through the whole
    file. *)
Record counts := mkCounts { n_v : nat; n_t : nat; n_n : nat }.

Definition no_counts : counts := mkCounts 0 0 0.

Definition count (now : counts) (s : statement) : counts :=
  match s with
  | SVertex _ => mkCounts (S (n_v now)) (n_t now) (n_n now)
  | STexture _ => mkCounts (n_v now) (S (n_t now)) (n_n now)
  | SNormal _ => mkCounts (n_v now) (n_t now) (S (n_n now))
  | _ => now
  end.

Definition count_all (now : counts) (ss : list statement) : counts := fold_left count ss now.

(** A number may refer to what the current object has declared so far: more
    than [base] (declared before the object) and at most [now]. *)
Definition in_scope (base now k : nat) : Prop := base < k <= now.

Definition part_in_scope (base now : nat) (k : option nat) : Prop :=
  match k with
  | Some k => in_scope base now k
  | None => True
  end.

Definition ref_in_scope (base now : counts) (r : reference) : Prop :=
  in_scope (n_v base) (n_v now) (ref_v r) /\
  part_in_scope (n_t base) (n_t now) (ref_t r) /\
  part_in_scope (n_n base) (n_n now) (ref_n r).

Definition point_token (base now : counts) (t : bytes) (k : nat) : Prop :=
  number_token t k /\ in_scope (n_v base) (n_v now) k.

Definition valid_ref (base now : counts) (t : bytes) (r : reference) : Prop :=
  ref_token t r /\ ref_in_scope base now r.

Definition present {A} (o : option A) : bool :=
  match o with Some _ => true | None => false end.

(** Which of the two optional parts a reference has. *)
Definition form (r : reference) : bool * bool := (present (ref_t r), present (ref_n r)).

Definition same_form (rs : list reference) : Prop :=
  forall r1 r2, In r1 rs -> In r2 rs -> form r1 = form r2.

(** ** Statements in the token sequence

    [reads_statement base now ts s rest]: the tokens [ts] start with the
    statement [s], and [rest] is what follows it. *)

(** Names up to the end of the line, which is consumed. *)
Inductive reads_line : list bytes -> list bytes -> list bytes -> Prop :=
| line_eof names : ~ In nl names -> reads_line names names []
| line_nl names rest : ~ In nl names -> reads_line (names ++ nl :: rest) names rest.

(** The references of a line or face end in front of the end of the input, or at
    the first token that is not a reference to something in scope; this token
    is consumed as well. *)
Inductive reads_refs (base now : counts) : list bytes -> list reference -> list bytes -> Prop :=
| refs_eof : reads_refs base now [] [] []
| refs_stop t rest : (forall r, ~ valid_ref base now t r) -> reads_refs base now (t :: rest) [] rest
| refs_more t r ts rs rest : valid_ref base now t r -> reads_refs base now ts rs rest ->
    reads_refs base now (t :: ts) (r :: rs) rest.

(** An optional number: taken if the next token reads as a number. *)
Inductive reads_optional (default : f64) : list bytes -> f64 -> list bytes -> Prop :=
| optional_given t x rest : float_token t x -> reads_optional default (t :: rest) x rest
| optional_other t rest : (forall x, ~ float_token t x) ->
    reads_optional default (t :: rest) default (t :: rest)
| optional_eof : reads_optional default [] default [].

Inductive reads_statement (base now : counts) : list bytes -> statement -> list bytes -> Prop :=
| reads_v tx ty tz ts x y z w rest :
    float_token tx x -> float_token ty y -> float_token tz z ->
    reads_optional f64_one ts w rest ->
    reads_statement base now (lit "v" :: tx :: ty :: tz :: ts) (SVertex (mkVertex x y z w)) rest
| reads_vt tu ts u v mid w rest :
    float_token tu u -> reads_optional f64_zero ts v mid -> reads_optional f64_zero mid w rest ->
    reads_statement base now (lit "vt" :: tu :: ts) (STexture (mkTextureVertex u v w)) rest
| reads_vn tx ty tz x y z rest :
    float_token tx x -> float_token ty y -> float_token tz z ->
    reads_statement base now (lit "vn" :: tx :: ty :: tz :: rest) (SNormal (mkNormalVertex x y z)) rest
| reads_g ts names rest :
    reads_line ts names rest ->
    reads_statement base now (lit "g" :: ts) (SGroup names) rest
| reads_s t n rest :
    smoothing_token t n ->
    reads_statement base now (lit "s" :: t :: rest) (SSmooth n) rest
| reads_usemtl name rest :
    reads_statement base now (lit "usemtl" :: name :: rest) (SUse name) rest
| reads_p ts toks ks rest :
    reads_line ts toks rest -> Forall2 (point_token base now) toks ks -> ks <> [] ->
    reads_statement base now (lit "p" :: ts) (SPoint ks) rest
| reads_l ts rs rest :
    reads_refs base now ts rs rest -> 2 <= length rs -> same_form rs ->
    reads_statement base now (lit "l" :: ts) (SLine rs) rest
| reads_f ts rs rest :
    reads_refs base now ts rs rest -> 3 <= length rs -> same_form rs ->
    reads_statement base now (lit "f" :: ts) (SFace rs) rest.

(** * Files *)

Definition at_object_end (ts : list bytes) : Prop :=
  match ts with
  | [] => True
  | t :: _ => t = lit "o"
  end.

(** The statements of an object, up to the next [o] or the end. *)
Inductive reads_body (base : counts) : counts -> list bytes -> list statement -> list bytes -> Prop :=
| body_end now ts : at_object_end ts -> reads_body base now ts [] ts
| body_blank now ts ss rest : reads_body base now ts ss rest -> reads_body base now (nl :: ts) ss rest
| body_statement now ts s mid ss rest :
    reads_statement base now ts s mid -> reads_body base (count now s) mid ss rest ->
    reads_body base now ts (s :: ss) rest.

(** Objects that start with [o]: name and statements. *)
Inductive reads_objects : counts -> list bytes -> list (bytes * list statement) -> list bytes -> Prop :=
| objects_end now ts : reads_objects now ts [] ts
| objects_more now name ts ss mid os rest :
    reads_body now now ts ss mid -> reads_objects (count_all now ss) mid os rest ->
    reads_objects now (lit "o" :: name :: nl :: ts) ((name, ss) :: os) rest.

(** The [mtllib] lines at the top. *)
Inductive reads_libraries : list bytes -> list bytes -> list bytes -> Prop :=
| libraries_blank ts libs rest : reads_libraries ts libs rest -> reads_libraries (nl :: ts) libs rest
| libraries_line ts names mid libs rest :
    reads_line ts names mid -> reads_libraries mid libs rest ->
    reads_libraries (lit "mtllib" :: ts) (names ++ libs) rest
| libraries_end ts :
    match ts with [] => True | t :: _ => t <> nl /\ t <> lit "mtllib" end ->
    reads_libraries ts [] ts.

Record obj_file := mkObjFile {
  file_libraries : list bytes;
  file_objects : list (bytes * list statement)
}.

(** [reads_file ts f rest]: the tokens up to [rest] are the libraries and the
    objects of [f].  Statements in front of the first [o] belong to an object
    without a name. *)
Inductive reads_file : list bytes -> obj_file -> list bytes -> Prop :=
| file_named ts libs mid os rest :
    reads_libraries ts libs mid -> reads_objects no_counts mid os rest ->
    reads_file ts (mkObjFile libs os) rest
| file_unnamed ts libs mid ss mid' os rest :
    reads_libraries ts libs mid -> ~ at_object_end mid ->
    reads_body no_counts no_counts mid ss mid' ->
    reads_objects (count_all no_counts ss) mid' os rest ->
    reads_file ts (mkObjFile libs (([], ss) :: os)) rest.

(** * Meaning *)

(** Zero-based number within the object. *)
Definition local_index (base k : nat) : nat := k - S base.

Definition local_ref (base : counts) (r : reference) : vtn_index :=
  let v := local_index (n_v base) (ref_v r) in
  match ref_t r, ref_n r with
  | None, None => V v
  | Some t, None => VT v (local_index (n_t base) t)
  | None, Some n => VN v (local_index (n_n base) n)
  | Some t, Some n => VTN v (local_index (n_t base) t) (local_index (n_n base) n)
  end.

(** Neighbours in a list. *)
Definition pairs {A} (l : list A) : list (A * A) := combine l (tl l).

(** The elements of one statement: points one by one, a polyline segment by
    segment, a polygon as a fan around its first corner. *)
Definition elements_of (base : counts) (s : statement) : list element :=
  match s with
  | SPoint ks => map (fun k => Point (V (local_index (n_v base) k))) ks
  | SLine rs => map (fun '(a, b) => Line a b) (pairs (map (local_ref base) rs))
  | SFace rs =>
      match map (local_ref base) rs with
      | a :: corners => map (fun '(b, c) => Face a b c) (pairs corners)
      | [] => []
      end
  | _ => []
  end.

Definition is_element (s : statement) : bool :=
  match s with SPoint _ | SLine _ | SFace _ => true | _ => false end.

Definition all_elements (base : counts) (ss : list statement) : list element :=
  flat_map (elements_of base) ss.

Definition all_vertices (ss : list statement) : list vertex :=
  flat_map (fun s => match s with SVertex v => [v] | _ => [] end) ss.
Definition all_texture_vertices (ss : list statement) : list texture_vertex :=
  flat_map (fun s => match s with STexture v => [v] | _ => [] end) ss.
Definition all_normals (ss : list statement) : list normal_vertex :=
  flat_map (fun s => match s with SNormal v => [v] | _ => [] end) ss.

(** ** Groups and smoothing groups *)

Definition names_of (s : statement) : list bytes :=
  match s with SGroup names => names | _ => [] end.
Definition smoothing_of (s : statement) : list N :=
  match s with SSmooth n => [n] | _ => [] end.

(** Everything declared, and in front of it the default if an element comes
    before any declaration. *)
Fixpoint declared {A} (decl : statement -> list A) (default : A) (ss : list statement) : list A :=
  match ss with
  | [] => []
  | s :: ss' =>
      if is_element s then default :: flat_map decl ss'
      else match decl s with
           | [] => declared decl default ss'
           | d => d ++ flat_map decl ss'
           end
  end.

Definition all_groups : list statement -> list bytes := declared names_of (lit "default").
Definition all_smoothing_groups : list statement -> list N := declared smoothing_of 0%N.

(** The last [g] statement of [before], with what comes before it. *)
Fixpoint last_group (before : list statement) : option (list statement * list bytes) :=
  match before with
  | [] => None
  | s :: before' =>
      match last_group before' with
      | Some (q, names) => Some (s :: q, names)
      | None => match s with SGroup names => Some ([], names) | _ => None end
      end
  end.

(** The groups, as positions in [all_groups], of an element that comes after the
    statements [before]: those named by the last [g] statement.  Without one,
    the default group, which is the first.  A [g] without names in front of
    everything else does not count; later ones leave no group at all. *)
Definition groups_at (before : list statement) : list nat :=
  match last_group before with
  | None => [0]
  | Some (q, names) =>
      match all_groups q, names with
      | [], [] => [0]
      | declared, _ => seq (length declared) (length names)
      end
  end.

(** The position of the last declared smoothing group (or the default). *)
Definition smoothing_at (before : list statement) : nat :=
  pred (length (all_smoothing_groups before)).

(** One entry per element, in order. *)
Fixpoint shapes_from (before : list statement) (base : counts) (ss : list statement) (i : nat)
  : list shape_entry :=
  match ss with
  | [] => []
  | s :: ss' =>
      let n := length (elements_of base s) in
      map (fun j => mkShapeEntry j (groups_at before) (smoothing_at before)) (seq i n)
        ++ shapes_from (before ++ [s]) base ss' (i + n)
  end.

(** ** Materials *)

(** The elements in front of the first [usemtl], and after each one. *)
Fixpoint segments (material : option bytes) (base : counts) (ss : list statement) (i n : nat)
  : list geometry :=
  match ss with
  | [] => [mkGeometry material (seq i n)]
  | SUse m :: ss' => mkGeometry material (seq i n) :: segments (Some m) base ss' (i + n) 0
  | s :: ss' => segments material base ss' i (n + length (elements_of base s))
  end.

(** Segments without elements are left out, except for the last one. *)
Fixpoint drop_empty (gs : list geometry) : list geometry :=
  match gs with
  | [] => []
  | [g] => [g]
  | g :: gs' => match shapes g with
                | [] => drop_empty gs'
                | _ => g :: drop_empty gs'
                end
  end.

(** ** Objects *)

Definition object_of (base : counts) (name : bytes) (ss : list statement) : object :=
  {| name := name;
     vertex_set := all_vertices ss;
     texture_vertex_set := all_texture_vertices ss;
     normal_vertex_set := all_normals ss;
     group_set := all_groups ss;
     smoothing_group_set := all_smoothing_groups ss;
     element_set := all_elements base ss;
     shape_set := shapes_from [] base ss 0;
     geometry_set := drop_empty (segments None base ss 0 0) |}.

Fixpoint objects_of (base : counts) (os : list (bytes * list statement)) : list object :=
  match os with
  | [] => []
  | (name, ss) :: os' => object_of base name ss :: objects_of (count_all base ss) os'
  end.

Definition file_means (f : obj_file) : object_set :=
  mkObjectSet (file_libraries f) (objects_of no_counts (file_objects f)).

(** An object with an element or a [usemtl].  [obj::parse] panics on any other
    (obj.rs:1249 indexes an empty vector). *)
Definition drawable (o : bytes * list statement) : Prop :=
  exists s, In s (snd o) /\ (is_element s = true \/ exists m, s = SUse m).
