(** When two results are the same up to the sign of zeros.  Independent of the
    model. *)
From Coq Require Import Floats.SpecFloat.
From Verif Require Import ObjTypes MtlTypes.
Local Open Scope list_scope.

(** [-0] and [0] count as the same number. *)
Definition unsigned_zero (x : f64) : f64 := match x with S754_zero _ => S754_zero false | _ => x end.

Definition clean_vertex (v : vertex) : vertex :=
  mkVertex (unsigned_zero (vx v)) (unsigned_zero (vy v)) (unsigned_zero (vz v)) (unsigned_zero (vw v)).
Definition clean_texture (v : texture_vertex) : texture_vertex :=
  mkTextureVertex (unsigned_zero (tu v)) (unsigned_zero (tv v)) (unsigned_zero (tw v)).
Definition clean_normal (v : normal_vertex) : normal_vertex :=
  mkNormalVertex (unsigned_zero (nx v)) (unsigned_zero (ny v)) (unsigned_zero (nz v)).

Definition clean_object (o : object) : object :=
  mkObject (ObjTypes.name o) (map clean_vertex (vertex_set o)) (map clean_texture (texture_vertex_set o))
    (map clean_normal (normal_vertex_set o)) (group_set o) (smoothing_group_set o) (element_set o) (shape_set o) (geometry_set o).

Definition clean_objects (s : object_set) : object_set :=
  mkObjectSet (material_libraries s) (map clean_object (objects s)).

Definition clean_color (c : color) : color :=
  mkColor (unsigned_zero (color_r c)) (unsigned_zero (color_g c)) (unsigned_zero (color_b c)).

Definition clean_material (m : material) : material :=
  mkMaterial (name m) (clean_color (color_ambient m)) (clean_color (color_diffuse m)) (clean_color (color_specular m))
    (clean_color (color_emissive m)) (unsigned_zero (specular_exponent m)) (unsigned_zero (dissolve m))
    (option_map unsigned_zero (optical_density m)) (illumination_model m)
    (map_ambient m) (map_diffuse m) (map_specular m) (map_emissive m) (map_specular_exponent m)
    (map_bump m) (map_displacement m) (map_dissolve m) (map_decal m).

Definition clean_materials (s : material_set) : material_set := mkMaterialSet (map clean_material (materials s)).

(** All the numbers in a result. *)
Definition object_numbers (o : object) : list f64 :=
  flat_map (fun v => [vx v; vy v; vz v; vw v]) (vertex_set o) ++
  flat_map (fun v => [tu v; tv v; tw v]) (texture_vertex_set o) ++
  flat_map (fun v => [nx v; ny v; nz v]) (normal_vertex_set o).

Definition set_numbers (s : object_set) : list f64 := flat_map object_numbers (objects s).

Definition color_numbers (c : color) : list f64 := [color_r c; color_g c; color_b c].

Definition material_numbers (m : material) : list f64 :=
  color_numbers (color_ambient m) ++ color_numbers (color_diffuse m) ++ color_numbers (color_specular m) ++
  color_numbers (color_emissive m) ++ [specular_exponent m; dissolve m] ++
  match optical_density m with Some x => [x] | None => [] end.

Definition materials_numbers (s : material_set) : list f64 := flat_map material_numbers (materials s).
