(** The materials an object set refers to, and an object set that refers to given
    ones.  Independent of the parser models. *)
From Verif Require Import ObjTypes ObjImageSpec FloatSpec.
Local Open Scope list_scope.

(** The names after [usemtl], in the order of the file. *)
Definition materials_used (set : object_set) : list bytes :=
  flat_map (fun ob => flat_map (fun g => match material_name g with Some m => [m] | None => [] end) (geometry_set ob)) (objects set).

(** A point without a material, and one more for every name in [ns]. *)
Definition point_each (ns : list bytes) : object :=
  let n := S (length ns) in
  {| name := []; vertex_set := [mkVertex f64_zero f64_zero f64_zero f64_one]; texture_vertex_set := []; normal_vertex_set := [];
     group_set := [lit "default"]; smoothing_group_set := [0%N];
     element_set := repeat (Point (V 0)) n; shape_set := map (fun i => mkShapeEntry i [0] 0) (seq 0 n);
     geometry_set := mkGeometry None [0] :: map (fun p => mkGeometry (Some (snd p)) [fst p]) (combine (seq 1 (length ns)) ns) |}.

Definition set_using (libraries ns : list bytes) : object_set := mkObjectSet libraries [point_each ns].
