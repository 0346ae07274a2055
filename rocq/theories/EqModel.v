(** Model of the derived [PartialEq] of src/obj.rs and src/mtl.rs. *)
From Coq Require Import Floats.SpecFloat.
From Verif Require Import ObjTypes MtlTypes.
Local Open Scope list_scope.

(** [==] on [f64]. *)
Definition f64_eq (x y : f64) : bool := SFeqb x y.

(** [==] on [Vec] and [Option], elementwise. *)
Fixpoint vec_eq {A} (eq : A -> A -> bool) (a b : list A) : bool :=
  match a, b with
  | [], [] => true
  | x :: a', y :: b' => eq x y && vec_eq eq a' b'
  | _, _ => false
  end.

(** [Option<String>] and [Option<f64>] (obj.rs:369; mtl.rs:140-196). *)
Definition option_eq {A} (eq : A -> A -> bool) (a b : option A) : bool :=
  match a, b with
  | None, None => true
  | Some x, Some y => eq x y
  | _, _ => false
  end.

(** obj.rs:119 *)
Definition vertex_eq (a b : vertex) : bool :=
  f64_eq (vx a) (vx b) && f64_eq (vy a) (vy b) && f64_eq (vz a) (vz b) && f64_eq (vw a) (vw b).

(** obj.rs:140 *)
Definition texture_vertex_eq (a b : texture_vertex) : bool :=
  f64_eq (tu a) (tu b) && f64_eq (tv a) (tv b) && f64_eq (tw a) (tw b).

(** obj.rs:158 *)
Definition normal_vertex_eq (a b : normal_vertex) : bool :=
  f64_eq (nx a) (nx b) && f64_eq (ny a) (ny b) && f64_eq (nz a) (nz b).

(** obj.rs:183 *)
Definition vtn_index_eq (a b : vtn_index) : bool :=
  match a, b with
  | V v, V v' => v =? v'
  | VT v t, VT v' t' => (v =? v') && (t =? t')
  | VN v n, VN v' n' => (v =? v') && (n =? n')
  | VTN v t n, VTN v' t' n' => (v =? v') && (t =? t') && (n =? n')
  | _, _ => false
  end.

(** obj.rs:278 *)
Definition element_eq (a b : element) : bool :=
  match a, b with
  | Point i, Point i' => vtn_index_eq i i'
  | Line i j, Line i' j' => vtn_index_eq i i' && vtn_index_eq j j'
  | Face i j k, Face i' j' k' => vtn_index_eq i i' && vtn_index_eq j j' && vtn_index_eq k k'
  | _, _ => false
  end.

(** obj.rs:338 *)
Definition shape_entry_eq (a b : shape_entry) : bool :=
  (se_element a =? se_element b) && vec_eq Nat.eqb (se_groups a) (se_groups b) &&
  (se_smoothing_group a =? se_smoothing_group b).

(** obj.rs:366 *)
Definition geometry_eq (a b : geometry) : bool :=
  option_eq bytes_eqb (material_name a) (material_name b) && vec_eq Nat.eqb (shapes a) (shapes b).

(** obj.rs:387 *)
Definition object_eq (a b : object) : bool :=
  bytes_eqb (ObjTypes.name a) (ObjTypes.name b) &&
  vec_eq vertex_eq (vertex_set a) (vertex_set b) &&
  vec_eq texture_vertex_eq (texture_vertex_set a) (texture_vertex_set b) &&
  vec_eq normal_vertex_eq (normal_vertex_set a) (normal_vertex_set b) &&
  vec_eq bytes_eqb (group_set a) (group_set b) &&
  vec_eq N.eqb (smoothing_group_set a) (smoothing_group_set b) &&
  vec_eq element_eq (element_set a) (element_set b) &&
  vec_eq shape_entry_eq (shape_set a) (shape_set b) &&
  vec_eq geometry_eq (geometry_set a) (geometry_set b).

(** obj.rs:568 *)
Definition object_set_eq (a b : object_set) : bool :=
  vec_eq bytes_eqb (material_libraries a) (material_libraries b) && vec_eq object_eq (objects a) (objects b).

(** mtl.rs:76 *)
Definition color_eq (a b : color) : bool :=
  f64_eq (color_r a) (color_r b) && f64_eq (color_g a) (color_g b) && f64_eq (color_b a) (color_b b).

(** mtl.rs:103 *)
Definition illumination_eq (a b : illumination) : bool :=
  match a, b with
  | Ambient, Ambient => true
  | AmbientDiffuse, AmbientDiffuse => true
  | AmbientDiffuseSpecular, AmbientDiffuseSpecular => true
  | _, _ => false
  end.

(** mtl.rs:122 *)
Definition material_eq (a b : material) : bool :=
  bytes_eqb (name a) (name b) &&
  color_eq (color_ambient a) (color_ambient b) &&
  color_eq (color_diffuse a) (color_diffuse b) &&
  color_eq (color_specular a) (color_specular b) &&
  color_eq (color_emissive a) (color_emissive b) &&
  f64_eq (specular_exponent a) (specular_exponent b) &&
  f64_eq (dissolve a) (dissolve b) &&
  option_eq f64_eq (optical_density a) (optical_density b) &&
  illumination_eq (illumination_model a) (illumination_model b) &&
  option_eq bytes_eqb (map_ambient a) (map_ambient b) &&
  option_eq bytes_eqb (map_diffuse a) (map_diffuse b) &&
  option_eq bytes_eqb (map_specular a) (map_specular b) &&
  option_eq bytes_eqb (map_emissive a) (map_emissive b) &&
  option_eq bytes_eqb (map_specular_exponent a) (map_specular_exponent b) &&
  option_eq bytes_eqb (map_bump a) (map_bump b) &&
  option_eq bytes_eqb (map_displacement a) (map_displacement b) &&
  option_eq bytes_eqb (map_dissolve a) (map_dissolve b) &&
  option_eq bytes_eqb (map_decal a) (map_decal b).

(** mtl.rs:211 *)
Definition material_set_eq (a b : material_set) : bool := vec_eq material_eq (materials a) (materials b).
