(** The data types of src/mtl.rs: what [mtl::parse] returns. *)
From Verif Require Export RustStd.
Local Open Scope list_scope.

(** mtl.rs:76-84, [struct Color] *)
Record color := mkColor { color_r : f64; color_g : f64; color_b : f64 }.

(** mtl.rs:86-95, [Color::zero] *)
Definition color_zero : color := mkColor f64_zero f64_zero f64_zero.

(** mtl.rs:103-111, [enum IlluminationModel] *)
Inductive illumination :=
| Ambient
| AmbientDiffuse
| AmbientDiffuseSpecular.

(** mtl.rs:122-182, [struct Material] *)
Record material := mkMaterial {
  name : bytes;
  color_ambient : color;
  color_diffuse : color;
  color_specular : color;
  color_emissive : color;
  specular_exponent : f64;
  dissolve : f64;
  optical_density : option f64;
  illumination_model : illumination;
  map_ambient : option bytes;
  map_diffuse : option bytes;
  map_specular : option bytes;
  map_emissive : option bytes;
  map_specular_exponent : option bytes;
  map_bump : option bytes;
  map_displacement : option bytes;
  map_dissolve : option bytes;
  map_decal : option bytes
}.

(** mtl.rs:184-207, [Material::new] *)
Definition material_new : material :=
  mkMaterial [] color_zero color_zero color_zero color_zero
    f64_zero f64_one None AmbientDiffuseSpecular
    None None None None None None None None None.

(** mtl.rs:211-214, [struct MaterialSet] *)
Record material_set := mkMaterialSet { materials : list material }.

(** mtl.rs:218-235, [enum ErrorKind] *)
Inductive error_kind :=
| EndOfFile
| ExpectedTagStatement
| ExpectedFloat
| ExpectedInteger
| ExpectedEndOfInput
| UnknownIlluminationModel
| ErrorParsingMaterial.
