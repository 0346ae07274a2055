(** Changes of an MTL text: other data, and statements that are overwritten. *)
From Verif Require Export MtlSpec.
Local Open Scope list_scope.

(** * Other data *)

(** What names and values are replaced by, field by field. *)
Record transform := mkTransform {
  on_name : bytes -> bytes;
  on_color : color_field -> color -> color;
  on_number : number_field -> f64 -> f64;
  on_illum : illumination -> illumination;
  on_map : map_field -> bytes -> bytes
}.

(** What a field is without a statement stays as it is. *)
Definition keeps_defaults (T : transform) : Prop :=
  (forall f, on_color T f black = black) /\ on_number T Ns f64_zero = f64_zero /\ on_number T D f64_one = f64_one /\
  on_illum T AmbientDiffuseSpecular = AmbientDiffuseSpecular.

Definition map_setting (T : transform) (s : setting) : setting :=
  match s with
  | SetColor f c => SetColor f (on_color T f c)
  | SetNumber f x => SetNumber f (on_number T f x)
  | SetIllum i => SetIllum (on_illum T i)
  | SetMap f n => SetMap f (on_map T f n)
  end.

Definition map_file (T : transform) (f : mtl_file) : mtl_file :=
  map (fun '(n, ss) => (on_name T n, map (map_setting T) ss)) f.

Definition map_material (T : transform) (m : material) : material :=
  {| name := on_name T (name m);
     color_ambient := on_color T Ka (color_ambient m);
     color_diffuse := on_color T Kd (color_diffuse m);
     color_specular := on_color T Ks (color_specular m);
     color_emissive := on_color T Ke (color_emissive m);
     specular_exponent := on_number T Ns (specular_exponent m);
     dissolve := on_number T D (dissolve m);
     optical_density := option_map (on_number T Ni) (optical_density m);
     illumination_model := on_illum T (illumination_model m);
     map_ambient := option_map (on_map T MapKa) (map_ambient m);
     map_diffuse := option_map (on_map T MapKd) (map_diffuse m);
     map_specular := option_map (on_map T MapKs) (map_specular m);
     map_emissive := option_map (on_map T MapKe) (map_emissive m);
     map_specular_exponent := option_map (on_map T MapNs) (map_specular_exponent m);
     map_bump := option_map (on_map T MapBump) (map_bump m);
     map_displacement := option_map (on_map T Disp) (map_displacement m);
     map_dissolve := option_map (on_map T MapD) (map_dissolve m);
     map_decal := option_map (on_map T Decal) (map_decal m) |}.

Definition map_set (T : transform) (set : material_set) : material_set :=
  mkMaterialSet (map (map_material T) (materials set)).
