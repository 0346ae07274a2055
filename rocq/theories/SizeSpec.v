(** How large a result is. *)
From Verif Require Import ObjTypes MtlTypes LineSpec.
Local Open Scope list_scope.

(** The lengths of all names together. *)
Definition weight (ws : list bytes) : nat := list_sum (map (@length _) ws).

(** The names in an object. *)
Definition material_names_of (ob : object) : list bytes :=
  flat_map (fun g => match material_name g with Some m => [m] | None => [] end) (geometry_set ob).

Definition names_in (ob : object) : list bytes := ObjTypes.name ob :: group_set ob ++ material_names_of ob.

(** The lengths of all lists of groups together. *)
Definition group_count (ob : object) : nat := list_sum (map (fun se => length (se_groups se)) (shape_set ob)).

(** The texture maps of a material. *)
Definition texture_maps (m : material) : list bytes :=
  flat_map (fun o => match o with Some x => [x] | None => [] end)
    [map_ambient m; map_diffuse m; map_specular m; map_emissive m; map_specular_exponent m;
     map_bump m; map_displacement m; map_dissolve m; map_decal m].

(** A vertex, [k] groups, and [k] points in each of them. *)
Definition many_groups (k : nat) : bytes :=
  unlines (map unwords [[lit "v"; lit "0"; lit "0"; lit "0"]; lit "g" :: repeat (lit "a") k; lit "p" :: repeat (lit "1") k]).
