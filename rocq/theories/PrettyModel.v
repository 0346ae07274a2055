(** Model of the derived [Debug] of src/obj.rs and src/mtl.rs as [{:#?}] writes it.
    The first part is the standard library by its documented behaviour, as in
    RustDebug.v: numbers and strings are written as by [{:?}], structs, variants
    and vectors with one line for every field or element. *)
From Verif Require Export DebugModel.
From Verif Require Import ObjTypes.
From Verif Require MtlTypes.
Local Open Scope string_scope.
Local Open Scope list_scope.

(** [core::fmt::builders::PadAdapter]: what is written through it gets four blanks
    at the start of every line. *)
Fixpoint pad_from (on_newline : bool) (s : bytes) : bytes :=
  match s with
  | [] => []
  | c :: r => (if on_newline then lit "    " else []) ++ c :: pad_from (Ascii.eqb c LF) r
  end.

(** One field or element, with the comma behind it. *)
Definition pretty_item (s : bytes) : bytes := pad_from true (s ++ [","%char; LF]).

(** [Vec] *)
Definition pretty_vec {A} (show : A -> bytes) (l : list A) : bytes :=
  lit "[" ++ match l with [] => [] | _ => LF :: flat_map pretty_item (map show l) end ++ lit "]".

(** A tuple struct or variant with fields. *)
Definition pretty_tuple (name : string) (fields : list bytes) : bytes :=
  lit name ++ lit "(" ++ LF :: flat_map pretty_item fields ++ lit ")".

(** A struct with named fields. *)
Definition pretty_struct (name : string) (fields : list (string * bytes)) : bytes :=
  lit name ++ lit " {" ++ LF :: flat_map pretty_item (map debug_field fields) ++ lit "}".

(** [Option] *)
Definition pretty_option {A} (show : A -> bytes) (o : option A) : bytes :=
  match o with
  | None => debug_unit "None"
  | Some a => pretty_tuple "Some" [show a]
  end.

(** * src/obj.rs *)

(** obj.rs:119-130 *)
Definition pretty_vertex (ch : choices) (v : vertex) : bytes :=
  pretty_struct "Vertex" [("x", debug_f64 ch (vx v)); ("y", debug_f64 ch (vy v)); ("z", debug_f64 ch (vz v)); ("w", debug_f64 ch (vw v))].

(** obj.rs:140-148 *)
Definition pretty_texture_vertex (ch : choices) (v : texture_vertex) : bytes :=
  pretty_struct "TextureVertex" [("u", debug_f64 ch (tu v)); ("v", debug_f64 ch (tv v)); ("w", debug_f64 ch (tw v))].

(** obj.rs:158-166 *)
Definition pretty_normal_vertex (ch : choices) (v : normal_vertex) : bytes :=
  pretty_struct "NormalVertex" [("x", debug_f64 ch (nx v)); ("y", debug_f64 ch (ny v)); ("z", debug_f64 ch (nz v))].

(** obj.rs:183-189 *)
Definition pretty_vtn_index (i : vtn_index) : bytes :=
  match i with
  | V v => pretty_tuple "V" [debug_nat v]
  | VT v vt => pretty_tuple "VT" [debug_nat v; debug_nat vt]
  | VN v vn => pretty_tuple "VN" [debug_nat v; debug_nat vn]
  | VTN v vt vn => pretty_tuple "VTN" [debug_nat v; debug_nat vt; debug_nat vn]
  end.

(** obj.rs:278-283 *)
Definition pretty_element (e : element) : bytes :=
  match e with
  | Point a => pretty_tuple "Point" [pretty_vtn_index a]
  | Line a b => pretty_tuple "Line" [pretty_vtn_index a; pretty_vtn_index b]
  | Face a b c => pretty_tuple "Face" [pretty_vtn_index a; pretty_vtn_index b; pretty_vtn_index c]
  end.

(** obj.rs:305-306 *)
Definition pretty_group (ch : choices) (g : group) : bytes := pretty_tuple "Group" [debug_str ch g].

(** obj.rs:323-324 *)
Definition pretty_smoothing_group (g : smoothing_group) : bytes := pretty_tuple "SmoothingGroup" [debug_N g].

(** obj.rs:338-346 *)
Definition pretty_shape_entry (s : shape_entry) : bytes :=
  pretty_struct "ShapeEntry"
    [("element", debug_nat (se_element s)); ("groups", pretty_vec debug_nat (se_groups s));
     ("smoothing_group", debug_nat (se_smoothing_group s))].

(** obj.rs:366-373 *)
Definition pretty_geometry (ch : choices) (g : geometry) : bytes :=
  pretty_struct "Geometry"
    [("material_name", pretty_option (debug_str ch) (material_name g)); ("shapes", pretty_vec debug_nat (shapes g))].

(** obj.rs:376-382 *)
Definition pretty_vtn_triple (ch : choices) (t : vtn_triple) : bytes :=
  match t with
  | TripleV v => pretty_tuple "V" [pretty_vertex ch v]
  | TripleVT v vt => pretty_tuple "VT" [pretty_vertex ch v; pretty_texture_vertex ch vt]
  | TripleVN v vn => pretty_tuple "VN" [pretty_vertex ch v; pretty_normal_vertex ch vn]
  | TripleVTN v vt vn => pretty_tuple "VTN" [pretty_vertex ch v; pretty_texture_vertex ch vt; pretty_normal_vertex ch vn]
  end.

(** obj.rs:387-408 *)
Definition pretty_object (ch : choices) (o : object) : bytes :=
  pretty_struct "Object"
    [("name", debug_str ch (name o));
     ("vertex_set", pretty_vec (pretty_vertex ch) (vertex_set o));
     ("texture_vertex_set", pretty_vec (pretty_texture_vertex ch) (texture_vertex_set o));
     ("normal_vertex_set", pretty_vec (pretty_normal_vertex ch) (normal_vertex_set o));
     ("group_set", pretty_vec (pretty_group ch) (group_set o));
     ("smoothing_group_set", pretty_vec pretty_smoothing_group (smoothing_group_set o));
     ("element_set", pretty_vec pretty_element (element_set o));
     ("shape_set", pretty_vec pretty_shape_entry (shape_set o));
     ("geometry_set", pretty_vec (pretty_geometry ch) (geometry_set o))].

(** obj.rs:568-574 *)
Definition pretty_object_set (ch : choices) (s : object_set) : bytes :=
  pretty_struct "ObjectSet"
    [("material_libraries", pretty_vec (debug_str ch) (material_libraries s)); ("objects", pretty_vec (pretty_object ch) (objects s))].

(** obj.rs:627-635 and mtl.rs:239-247; the kinds have no fields. *)
Definition pretty_parse_error {K} (kind : K -> bytes) (ch : choices) (e : parse_error K) : bytes :=
  pretty_struct "ParseError"
    [("line_number", debug_nat (err_line_number e)); ("kind", kind (err_kind e)); ("message", debug_str ch (err_message e))].

(** The text of a [Result<_, ParseError>]; there is none if the call does not
    return. *)
Definition pretty_outcome {K A} (show : A -> bytes) (kind : K -> bytes) (ch : choices) (r : outcome (parse_error K) A) : option bytes :=
  match r with
  | Ok a => Some (pretty_tuple "Ok" [show a])
  | Err e => Some (pretty_tuple "Err" [pretty_parse_error kind ch e])
  | Panic _ => None
  | Diverge => None
  end.

Definition pretty_obj_result (ch : choices) : outcome (parse_error error_kind) object_set -> option bytes :=
  pretty_outcome (pretty_object_set ch) debug_error_kind ch.

(** * src/mtl.rs *)

(** mtl.rs:76-84 *)
Definition pretty_color (ch : choices) (c : MtlTypes.color) : bytes :=
  pretty_struct "Color"
    [("r", debug_f64 ch (MtlTypes.color_r c)); ("g", debug_f64 ch (MtlTypes.color_g c)); ("b", debug_f64 ch (MtlTypes.color_b c))].

(** mtl.rs:122-182 *)
Definition pretty_material (ch : choices) (m : MtlTypes.material) : bytes :=
  pretty_struct "Material"
    [("name", debug_str ch (MtlTypes.name m));
     ("color_ambient", pretty_color ch (MtlTypes.color_ambient m));
     ("color_diffuse", pretty_color ch (MtlTypes.color_diffuse m));
     ("color_specular", pretty_color ch (MtlTypes.color_specular m));
     ("color_emissive", pretty_color ch (MtlTypes.color_emissive m));
     ("specular_exponent", debug_f64 ch (MtlTypes.specular_exponent m));
     ("dissolve", debug_f64 ch (MtlTypes.dissolve m));
     ("optical_density", pretty_option (debug_f64 ch) (MtlTypes.optical_density m));
     ("illumination_model", debug_illumination (MtlTypes.illumination_model m));
     ("map_ambient", pretty_option (debug_str ch) (MtlTypes.map_ambient m));
     ("map_diffuse", pretty_option (debug_str ch) (MtlTypes.map_diffuse m));
     ("map_specular", pretty_option (debug_str ch) (MtlTypes.map_specular m));
     ("map_emissive", pretty_option (debug_str ch) (MtlTypes.map_emissive m));
     ("map_specular_exponent", pretty_option (debug_str ch) (MtlTypes.map_specular_exponent m));
     ("map_bump", pretty_option (debug_str ch) (MtlTypes.map_bump m));
     ("map_displacement", pretty_option (debug_str ch) (MtlTypes.map_displacement m));
     ("map_dissolve", pretty_option (debug_str ch) (MtlTypes.map_dissolve m));
     ("map_decal", pretty_option (debug_str ch) (MtlTypes.map_decal m))].

(** mtl.rs:211-214 *)
Definition pretty_material_set (ch : choices) (s : MtlTypes.material_set) : bytes :=
  pretty_struct "MaterialSet" [("materials", pretty_vec (pretty_material ch) (MtlTypes.materials s))].

Definition pretty_mtl_result (ch : choices) : outcome (parse_error MtlTypes.error_kind) MtlTypes.material_set -> option bytes :=
  pretty_outcome (pretty_material_set ch) debug_mtl_error_kind ch.
