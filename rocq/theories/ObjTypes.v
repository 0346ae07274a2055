(** The data types of src/obj.rs: what [obj::parse] returns. *)
From Verif Require Export RustStd.
Local Open Scope list_scope.

(** obj.rs:119-130, [struct Vertex] *)
Record vertex := mkVertex { vx : f64; vy : f64; vz : f64; vw : f64 }.

(** obj.rs:140-148, [struct TextureVertex] *)
Record texture_vertex := mkTextureVertex { tu : f64; tv : f64; tw : f64 }.

(** obj.rs:158-166, [struct NormalVertex] *)
Record normal_vertex := mkNormalVertex { nx : f64; ny : f64; nz : f64 }.

(** obj.rs:183-189, [enum VTNIndex]; the index types (obj.rs:263-269) are
    [usize], modelled as [nat]. *)
Inductive vtn_index :=
| V (v : nat)
| VT (v vt : nat)
| VN (v vn : nat)
| VTN (v vt vn : nat).

(** obj.rs:278-283, [enum Element] *)
Inductive element :=
| Point (a : vtn_index)
| Line (a b : vtn_index)
| Face (a b c : vtn_index).

(** obj.rs:305-306, [struct Group(String)] is its name; obj.rs:314-318, its
    [Default]. *)
Definition group := bytes.
Definition group_default : group := lit "default".

(** obj.rs:323-324, [struct SmoothingGroup(usize)], derived [Default]. *)
Definition smoothing_group := N.
Definition smoothing_group_default : smoothing_group := 0%N.

(** obj.rs:338-346, [struct ShapeEntry] *)
Record shape_entry := mkShapeEntry {
  se_element : nat;
  se_groups : list nat;
  se_smoothing_group : nat
}.

(** obj.rs:366-373, [struct Geometry] *)
Record geometry := mkGeometry {
  material_name : option bytes;
  shapes : list nat
}.

(** obj.rs:376-382, [enum VTNTriple] *)
Inductive vtn_triple :=
| TripleV (v : vertex)
| TripleVT (v : vertex) (vt : texture_vertex)
| TripleVN (v : vertex) (vn : normal_vertex)
| TripleVTN (v : vertex) (vt : texture_vertex) (vn : normal_vertex).

(** obj.rs:387-408, [struct Object] *)
Record object := mkObject {
  name : bytes;
  vertex_set : list vertex;
  texture_vertex_set : list texture_vertex;
  normal_vertex_set : list normal_vertex;
  group_set : list group;
  smoothing_group_set : list smoothing_group;
  element_set : list element;
  shape_set : list shape_entry;
  geometry_set : list geometry
}.

(** obj.rs:568-574, [struct ObjectSet] *)
Record object_set := mkObjectSet {
  material_libraries : list bytes;
  objects : list object
}.

(** obj.rs:594-623, [enum ErrorKind] *)
Inductive error_kind :=
| EndOfFile
| ExpectedTagStatement
| ExpectedFloat
| ExpectedInteger
| ExpectedVTNIndex
| VTNIndexOutOfRange
| EveryFaceElementMustHaveAtLeastThreeVertices
| EveryVTNIndexMustHaveTheSameFormForAGivenElement
| InvalidObjectStatement
| ElementMustBeAPointLineOrFace
| SmoothingGroupNameMustBeOffOrInteger
| SmoothingGroupDeclarationHasNoName
| MaterialStatementHasNoName.
