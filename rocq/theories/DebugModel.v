(** Model of the derived [Debug] ([{:?}]) of src/obj.rs and src/mtl.rs. *)
From Verif Require Export RustDebug ParserBase.
From Verif Require Import ObjTypes.
From Verif Require MtlTypes.
Local Open Scope list_scope.
Local Open Scope string_scope.

(** * src/obj.rs *)

(** obj.rs:119-130 *)
Definition debug_vertex (ch : choices) (v : vertex) : bytes :=
  debug_struct "Vertex" [("x", debug_f64 ch (vx v)); ("y", debug_f64 ch (vy v)); ("z", debug_f64 ch (vz v)); ("w", debug_f64 ch (vw v))].

(** obj.rs:140-148 *)
Definition debug_texture_vertex (ch : choices) (v : texture_vertex) : bytes :=
  debug_struct "TextureVertex" [("u", debug_f64 ch (tu v)); ("v", debug_f64 ch (tv v)); ("w", debug_f64 ch (tw v))].

(** obj.rs:158-166 *)
Definition debug_normal_vertex (ch : choices) (v : normal_vertex) : bytes :=
  debug_struct "NormalVertex" [("x", debug_f64 ch (nx v)); ("y", debug_f64 ch (ny v)); ("z", debug_f64 ch (nz v))].

(** obj.rs:183-189 *)
Definition debug_vtn_index (i : vtn_index) : bytes :=
  match i with
  | V v => debug_tuple "V" [debug_nat v]
  | VT v vt => debug_tuple "VT" [debug_nat v; debug_nat vt]
  | VN v vn => debug_tuple "VN" [debug_nat v; debug_nat vn]
  | VTN v vt vn => debug_tuple "VTN" [debug_nat v; debug_nat vt; debug_nat vn]
  end.

(** obj.rs:278-283 *)
Definition debug_element (e : element) : bytes :=
  match e with
  | Point a => debug_tuple "Point" [debug_vtn_index a]
  | Line a b => debug_tuple "Line" [debug_vtn_index a; debug_vtn_index b]
  | Face a b c => debug_tuple "Face" [debug_vtn_index a; debug_vtn_index b; debug_vtn_index c]
  end.

(** obj.rs:305-306 *)
Definition debug_group (ch : choices) (g : group) : bytes := debug_tuple "Group" [debug_str ch g].

(** obj.rs:323-324 *)
Definition debug_smoothing_group (g : smoothing_group) : bytes := debug_tuple "SmoothingGroup" [debug_N g].

(** obj.rs:338-346 *)
Definition debug_shape_entry (s : shape_entry) : bytes :=
  debug_struct "ShapeEntry"
    [("element", debug_nat (se_element s)); ("groups", debug_vec debug_nat (se_groups s));
     ("smoothing_group", debug_nat (se_smoothing_group s))].

(** obj.rs:366-373 *)
Definition debug_geometry (ch : choices) (g : geometry) : bytes :=
  debug_struct "Geometry"
    [("material_name", debug_option (debug_str ch) (material_name g)); ("shapes", debug_vec debug_nat (shapes g))].

(** obj.rs:376-382; a reference is written like what it refers to. *)
Definition debug_vtn_triple (ch : choices) (t : vtn_triple) : bytes :=
  match t with
  | TripleV v => debug_tuple "V" [debug_vertex ch v]
  | TripleVT v vt => debug_tuple "VT" [debug_vertex ch v; debug_texture_vertex ch vt]
  | TripleVN v vn => debug_tuple "VN" [debug_vertex ch v; debug_normal_vertex ch vn]
  | TripleVTN v vt vn => debug_tuple "VTN" [debug_vertex ch v; debug_texture_vertex ch vt; debug_normal_vertex ch vn]
  end.

(** obj.rs:387-408 *)
Definition debug_object (ch : choices) (o : object) : bytes :=
  debug_struct "Object"
    [("name", debug_str ch (name o));
     ("vertex_set", debug_vec (debug_vertex ch) (vertex_set o));
     ("texture_vertex_set", debug_vec (debug_texture_vertex ch) (texture_vertex_set o));
     ("normal_vertex_set", debug_vec (debug_normal_vertex ch) (normal_vertex_set o));
     ("group_set", debug_vec (debug_group ch) (group_set o));
     ("smoothing_group_set", debug_vec debug_smoothing_group (smoothing_group_set o));
     ("element_set", debug_vec debug_element (element_set o));
     ("shape_set", debug_vec debug_shape_entry (shape_set o));
     ("geometry_set", debug_vec (debug_geometry ch) (geometry_set o))].

(** obj.rs:568-574 *)
Definition debug_object_set (ch : choices) (s : object_set) : bytes :=
  debug_struct "ObjectSet"
    [("material_libraries", debug_vec (debug_str ch) (material_libraries s)); ("objects", debug_vec (debug_object ch) (objects s))].

(** obj.rs:594-623 *)
Definition debug_error_kind (k : error_kind) : bytes :=
  debug_unit match k with
  | EndOfFile => "EndOfFile"
  | ExpectedTagStatement => "ExpectedTagStatement"
  | ExpectedFloat => "ExpectedFloat"
  | ExpectedInteger => "ExpectedInteger"
  | ExpectedVTNIndex => "ExpectedVTNIndex"
  | VTNIndexOutOfRange => "VTNIndexOutOfRange"
  | EveryFaceElementMustHaveAtLeastThreeVertices => "EveryFaceElementMustHaveAtLeastThreeVertices"
  | EveryVTNIndexMustHaveTheSameFormForAGivenElement => "EveryVTNIndexMustHaveTheSameFormForAGivenElement"
  | InvalidObjectStatement => "InvalidObjectStatement"
  | ElementMustBeAPointLineOrFace => "ElementMustBeAPointLineOrFace"
  | SmoothingGroupNameMustBeOffOrInteger => "SmoothingGroupNameMustBeOffOrInteger"
  | SmoothingGroupDeclarationHasNoName => "SmoothingGroupDeclarationHasNoName"
  | MaterialStatementHasNoName => "MaterialStatementHasNoName"
  end.

(** obj.rs:627-635 and mtl.rs:239-247 *)
Definition debug_parse_error {K} (kind : K -> bytes) (ch : choices) (e : parse_error K) : bytes :=
  debug_struct "ParseError"
    [("line_number", debug_nat (err_line_number e)); ("kind", kind (err_kind e)); ("message", debug_str ch (err_message e))].

(** The text of a [Result<_, ParseError>]; there is none if the call does not
    return. *)
Definition debug_outcome {K A} (show : A -> bytes) (kind : K -> bytes) (ch : choices) (r : outcome (parse_error K) A) : option bytes :=
  match r with
  | Ok a => Some (debug_tuple "Ok" [show a])
  | Err e => Some (debug_tuple "Err" [debug_parse_error kind ch e])
  | Panic _ => None
  | Diverge => None
  end.

Definition debug_obj_result (ch : choices) : outcome (parse_error error_kind) object_set -> option bytes :=
  debug_outcome (debug_object_set ch) debug_error_kind ch.

(** * src/mtl.rs *)

(** mtl.rs:76-84 *)
Definition debug_color (ch : choices) (c : MtlTypes.color) : bytes :=
  debug_struct "Color"
    [("r", debug_f64 ch (MtlTypes.color_r c)); ("g", debug_f64 ch (MtlTypes.color_g c)); ("b", debug_f64 ch (MtlTypes.color_b c))].

(** mtl.rs:103-111 *)
Definition debug_illumination (i : MtlTypes.illumination) : bytes :=
  debug_unit match i with
  | MtlTypes.Ambient => "Ambient"
  | MtlTypes.AmbientDiffuse => "AmbientDiffuse"
  | MtlTypes.AmbientDiffuseSpecular => "AmbientDiffuseSpecular"
  end.

(** mtl.rs:122-182 *)
Definition debug_material (ch : choices) (m : MtlTypes.material) : bytes :=
  debug_struct "Material"
    [("name", debug_str ch (MtlTypes.name m));
     ("color_ambient", debug_color ch (MtlTypes.color_ambient m));
     ("color_diffuse", debug_color ch (MtlTypes.color_diffuse m));
     ("color_specular", debug_color ch (MtlTypes.color_specular m));
     ("color_emissive", debug_color ch (MtlTypes.color_emissive m));
     ("specular_exponent", debug_f64 ch (MtlTypes.specular_exponent m));
     ("dissolve", debug_f64 ch (MtlTypes.dissolve m));
     ("optical_density", debug_option (debug_f64 ch) (MtlTypes.optical_density m));
     ("illumination_model", debug_illumination (MtlTypes.illumination_model m));
     ("map_ambient", debug_option (debug_str ch) (MtlTypes.map_ambient m));
     ("map_diffuse", debug_option (debug_str ch) (MtlTypes.map_diffuse m));
     ("map_specular", debug_option (debug_str ch) (MtlTypes.map_specular m));
     ("map_emissive", debug_option (debug_str ch) (MtlTypes.map_emissive m));
     ("map_specular_exponent", debug_option (debug_str ch) (MtlTypes.map_specular_exponent m));
     ("map_bump", debug_option (debug_str ch) (MtlTypes.map_bump m));
     ("map_displacement", debug_option (debug_str ch) (MtlTypes.map_displacement m));
     ("map_dissolve", debug_option (debug_str ch) (MtlTypes.map_dissolve m));
     ("map_decal", debug_option (debug_str ch) (MtlTypes.map_decal m))].

(** mtl.rs:211-214 *)
Definition debug_material_set (ch : choices) (s : MtlTypes.material_set) : bytes :=
  debug_struct "MaterialSet" [("materials", debug_vec (debug_material ch) (MtlTypes.materials s))].

(** mtl.rs:218-235 *)
Definition debug_mtl_error_kind (k : MtlTypes.error_kind) : bytes :=
  debug_unit match k with
  | MtlTypes.EndOfFile => "EndOfFile"
  | MtlTypes.ExpectedTagStatement => "ExpectedTagStatement"
  | MtlTypes.ExpectedFloat => "ExpectedFloat"
  | MtlTypes.ExpectedInteger => "ExpectedInteger"
  | MtlTypes.ExpectedEndOfInput => "ExpectedEndOfInput"
  | MtlTypes.UnknownIlluminationModel => "UnknownIlluminationModel"
  | MtlTypes.ErrorParsingMaterial => "ErrorParsingMaterial"
  end.

Definition debug_mtl_result (ch : choices) : outcome (parse_error MtlTypes.error_kind) MtlTypes.material_set -> option bytes :=
  debug_outcome (debug_material_set ch) debug_mtl_error_kind ch.
