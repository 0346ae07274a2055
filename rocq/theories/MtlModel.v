(** Model of src/mtl.rs. *)
From Verif Require Export MtlTypes ParserBase.
Local Open Scope list_scope.

(** Assignments [material.field = x] in [parse_material]. *)

(** mtl.rs:631 *)
Definition set_name (m : material) (x : bytes) : material :=
  mkMaterial x (color_ambient m) (color_diffuse m) (color_specular m) (color_emissive m)
    (specular_exponent m) (dissolve m) (optical_density m) (illumination_model m)
    (map_ambient m) (map_diffuse m) (map_specular m) (map_emissive m) (map_specular_exponent m)
    (map_bump m) (map_displacement m) (map_dissolve m) (map_decal m).
(** mtl.rs:637 *)
Definition set_color_ambient (m : material) (x : color) : material :=
  mkMaterial (name m) x (color_diffuse m) (color_specular m) (color_emissive m)
    (specular_exponent m) (dissolve m) (optical_density m) (illumination_model m)
    (map_ambient m) (map_diffuse m) (map_specular m) (map_emissive m) (map_specular_exponent m)
    (map_bump m) (map_displacement m) (map_dissolve m) (map_decal m).
(** mtl.rs:640 *)
Definition set_color_diffuse (m : material) (x : color) : material :=
  mkMaterial (name m) (color_ambient m) x (color_specular m) (color_emissive m)
    (specular_exponent m) (dissolve m) (optical_density m) (illumination_model m)
    (map_ambient m) (map_diffuse m) (map_specular m) (map_emissive m) (map_specular_exponent m)
    (map_bump m) (map_displacement m) (map_dissolve m) (map_decal m).
(** mtl.rs:643 *)
Definition set_color_specular (m : material) (x : color) : material :=
  mkMaterial (name m) (color_ambient m) (color_diffuse m) x (color_emissive m)
    (specular_exponent m) (dissolve m) (optical_density m) (illumination_model m)
    (map_ambient m) (map_diffuse m) (map_specular m) (map_emissive m) (map_specular_exponent m)
    (map_bump m) (map_displacement m) (map_dissolve m) (map_decal m).
(** mtl.rs:646 *)
Definition set_color_emissive (m : material) (x : color) : material :=
  mkMaterial (name m) (color_ambient m) (color_diffuse m) (color_specular m) x
    (specular_exponent m) (dissolve m) (optical_density m) (illumination_model m)
    (map_ambient m) (map_diffuse m) (map_specular m) (map_emissive m) (map_specular_exponent m)
    (map_bump m) (map_displacement m) (map_dissolve m) (map_decal m).
(** mtl.rs:655 *)
Definition set_specular_exponent (m : material) (x : f64) : material :=
  mkMaterial (name m) (color_ambient m) (color_diffuse m) (color_specular m) (color_emissive m)
    x (dissolve m) (optical_density m) (illumination_model m) (map_ambient m) (map_diffuse m)
    (map_specular m) (map_emissive m) (map_specular_exponent m) (map_bump m)
    (map_displacement m) (map_dissolve m) (map_decal m).
(** mtl.rs:649 *)
Definition set_dissolve (m : material) (x : f64) : material :=
  mkMaterial (name m) (color_ambient m) (color_diffuse m) (color_specular m) (color_emissive m)
    (specular_exponent m) x (optical_density m) (illumination_model m) (map_ambient m)
    (map_diffuse m) (map_specular m) (map_emissive m) (map_specular_exponent m) (map_bump m)
    (map_displacement m) (map_dissolve m) (map_decal m).
(** mtl.rs:659 *)
Definition set_optical_density (m : material) (x : option f64) : material :=
  mkMaterial (name m) (color_ambient m) (color_diffuse m) (color_specular m) (color_emissive m)
    (specular_exponent m) (dissolve m) x (illumination_model m) (map_ambient m) (map_diffuse m)
    (map_specular m) (map_emissive m) (map_specular_exponent m) (map_bump m)
    (map_displacement m) (map_dissolve m) (map_decal m).
(** mtl.rs:652 *)
Definition set_illumination_model (m : material) (x : illumination) : material :=
  mkMaterial (name m) (color_ambient m) (color_diffuse m) (color_specular m) (color_emissive m)
    (specular_exponent m) (dissolve m) (optical_density m) x (map_ambient m) (map_diffuse m)
    (map_specular m) (map_emissive m) (map_specular_exponent m) (map_bump m)
    (map_displacement m) (map_dissolve m) (map_decal m).
(** mtl.rs:663 *)
Definition set_map_ambient (m : material) (x : option bytes) : material :=
  mkMaterial (name m) (color_ambient m) (color_diffuse m) (color_specular m) (color_emissive m)
    (specular_exponent m) (dissolve m) (optical_density m) (illumination_model m) x
    (map_diffuse m) (map_specular m) (map_emissive m) (map_specular_exponent m) (map_bump m)
    (map_displacement m) (map_dissolve m) (map_decal m).
(** mtl.rs:667 *)
Definition set_map_diffuse (m : material) (x : option bytes) : material :=
  mkMaterial (name m) (color_ambient m) (color_diffuse m) (color_specular m) (color_emissive m)
    (specular_exponent m) (dissolve m) (optical_density m) (illumination_model m)
    (map_ambient m) x (map_specular m) (map_emissive m) (map_specular_exponent m) (map_bump m)
    (map_displacement m) (map_dissolve m) (map_decal m).
(** mtl.rs:671 *)
Definition set_map_specular (m : material) (x : option bytes) : material :=
  mkMaterial (name m) (color_ambient m) (color_diffuse m) (color_specular m) (color_emissive m)
    (specular_exponent m) (dissolve m) (optical_density m) (illumination_model m)
    (map_ambient m) (map_diffuse m) x (map_emissive m) (map_specular_exponent m) (map_bump m)
    (map_displacement m) (map_dissolve m) (map_decal m).
(** mtl.rs:675 *)
Definition set_map_emissive (m : material) (x : option bytes) : material :=
  mkMaterial (name m) (color_ambient m) (color_diffuse m) (color_specular m) (color_emissive m)
    (specular_exponent m) (dissolve m) (optical_density m) (illumination_model m)
    (map_ambient m) (map_diffuse m) (map_specular m) x (map_specular_exponent m) (map_bump m)
    (map_displacement m) (map_dissolve m) (map_decal m).
(** mtl.rs:679 *)
Definition set_map_specular_exponent (m : material) (x : option bytes) : material :=
  mkMaterial (name m) (color_ambient m) (color_diffuse m) (color_specular m) (color_emissive m)
    (specular_exponent m) (dissolve m) (optical_density m) (illumination_model m)
    (map_ambient m) (map_diffuse m) (map_specular m) (map_emissive m) x (map_bump m)
    (map_displacement m) (map_dissolve m) (map_decal m).
(** mtl.rs:683 *)
Definition set_map_bump (m : material) (x : option bytes) : material :=
  mkMaterial (name m) (color_ambient m) (color_diffuse m) (color_specular m) (color_emissive m)
    (specular_exponent m) (dissolve m) (optical_density m) (illumination_model m)
    (map_ambient m) (map_diffuse m) (map_specular m) (map_emissive m) (map_specular_exponent m)
    x (map_displacement m) (map_dissolve m) (map_decal m).
(** mtl.rs:687 *)
Definition set_map_displacement (m : material) (x : option bytes) : material :=
  mkMaterial (name m) (color_ambient m) (color_diffuse m) (color_specular m) (color_emissive m)
    (specular_exponent m) (dissolve m) (optical_density m) (illumination_model m)
    (map_ambient m) (map_diffuse m) (map_specular m) (map_emissive m) (map_specular_exponent m)
    (map_bump m) x (map_dissolve m) (map_decal m).
(** mtl.rs:691 *)
Definition set_map_dissolve (m : material) (x : option bytes) : material :=
  mkMaterial (name m) (color_ambient m) (color_diffuse m) (color_specular m) (color_emissive m)
    (specular_exponent m) (dissolve m) (optical_density m) (illumination_model m)
    (map_ambient m) (map_diffuse m) (map_specular m) (map_emissive m) (map_specular_exponent m)
    (map_bump m) (map_displacement m) x (map_decal m).
(** mtl.rs:695 *)
Definition set_map_decal (m : material) (x : option bytes) : material :=
  mkMaterial (name m) (color_ambient m) (color_diffuse m) (color_specular m) (color_emissive m)
    (specular_exponent m) (dissolve m) (optical_density m) (illumination_model m)
    (map_ambient m) (map_diffuse m) (map_specular m) (map_emissive m) (map_specular_exponent m)
    (map_bump m) (map_displacement m) (map_dissolve m) x.

Section Parser.
Context {S : token_source}.

(** A method of [mtl::Parser]. *)
Local Notation M := (M S error_kind).

(** [fuel]: bound on the number of rounds of each loop. *)
Context (fuel : nat).

(** mtl.rs:321-329, [Parser::next_string] *)
Definition next_string : M bytes :=
  t <- next ;;
  match t with
  | Some st => ret st
  | None => error EndOfFile (lit "Expected token but reached end of input.")
  end.

(** mtl.rs:335-344, [Parser::expect_tag] *)
Definition expect_tag (tag : bytes) : M unit :=
  t <- next ;;
  match t with
  | None => error EndOfFile []
  | Some st =>
      if negb (bytes_eqb st tag) then
        error ExpectedTagStatement
          (lit "Expected statement " ++ tag ++ lit " but got statement " ++ st)
      else ret tt
  end.

(** mtl.rs:354-363, [Parser::parse_f64] *)
Definition parse_f64 : M f64 :=
  st <- next_string ;;
  match RustStd.parse_f64 st with
  | Some val => ret val
  | None => error ExpectedFloat (lit "Expected floating point number but got " ++ st)
  end.

(** mtl.rs:366-375, [Parser::parse_usize] *)
Definition parse_usize : M N :=
  st <- next_string ;;
  match RustStd.parse_usize st with
  | Some val => ret val
  | None => error ExpectedInteger (lit "Expected integer but got " ++ st)
  end.

(** mtl.rs:378-384, [Parser::parse_color] *)
Definition parse_color : M color :=
  r <- parse_f64 ;;
  g <- parse_f64 ;;
  b <- parse_f64 ;;
  ret (mkColor r g b).

(** mtl.rs:387-390, [Parser::parse_ambient_component] *)
Definition parse_ambient_component : M color :=
  expect_tag (lit "Ka") ;;; parse_color.

(** mtl.rs:393-396, [Parser::parse_diffuse_component] *)
Definition parse_diffuse_component : M color :=
  expect_tag (lit "Kd") ;;; parse_color.

(** mtl.rs:399-402, [Parser::parse_specular_component] *)
Definition parse_specular_component : M color :=
  expect_tag (lit "Ks") ;;; parse_color.

(** mtl.rs:405-408, [Parser::parse_emissive_component] *)
Definition parse_emissive_component : M color :=
  expect_tag (lit "Ke") ;;; parse_color.

(** mtl.rs:411-414, [Parser::parse_dissolve_component] *)
Definition parse_dissolve_component : M f64 :=
  expect_tag (lit "d") ;;; parse_f64.

(** mtl.rs:417-420, [Parser::parse_specular_exponent] *)
Definition parse_specular_exponent : M f64 :=
  expect_tag (lit "Ns") ;;; parse_f64.

(** mtl.rs:423-426, [Parser::parse_optical_density] *)
Definition parse_optical_density : M f64 :=
  expect_tag (lit "Ni") ;;; parse_f64.

(** mtl.rs:436-442 (and the same text in the other eight map parsers): the name
    after the tag. *)
Definition parse_map_name : M (option bytes) :=
  t <- next ;;
  match t with
  | Some st => ret (Some st)
  | None => error EndOfFile (lit "Expected texture map name but got end of input.")
  end.

(** mtl.rs:429-443, [Parser::parse_map_ambient] *)
Definition parse_map_ambient : M (option bytes) :=
  t <- peek ;;
  if is_tok t "map_Ka" then expect_tag (lit "map_Ka") ;;; parse_map_name
  else ret None.

(** mtl.rs:446-460, [Parser::parse_map_diffuse] *)
Definition parse_map_diffuse : M (option bytes) :=
  t <- peek ;;
  if is_tok t "map_Kd" then expect_tag (lit "map_Kd") ;;; parse_map_name
  else ret None.

(** mtl.rs:463-477, [Parser::parse_map_specular] *)
Definition parse_map_specular : M (option bytes) :=
  t <- peek ;;
  if is_tok t "map_Ks" then expect_tag (lit "map_Ks") ;;; parse_map_name
  else ret None.

(** mtl.rs:480-494, [Parser::parse_map_emissive] *)
Definition parse_map_emissive : M (option bytes) :=
  t <- peek ;;
  if is_tok t "map_Ke" then expect_tag (lit "map_Ke") ;;; parse_map_name
  else ret None.

(** mtl.rs:497-515, [Parser::parse_map_bump] *)
Definition parse_map_bump : M (option bytes) :=
  t <- peek ;;
  if is_tok t "map_Bump" then expect_tag (lit "map_Bump") ;;; parse_map_name
  else if is_tok t "bump" then expect_tag (lit "bump") ;;; parse_map_name
  else ret None.

(** mtl.rs:518-532, [Parser::parse_map_displacement] *)
Definition parse_map_displacement : M (option bytes) :=
  t <- peek ;;
  if is_tok t "disp" then expect_tag (lit "disp") ;;; parse_map_name
  else ret None.

(** mtl.rs:535-549, [Parser::parse_map_dissolve] *)
Definition parse_map_dissolve : M (option bytes) :=
  t <- peek ;;
  if is_tok t "map_d" then expect_tag (lit "map_d") ;;; parse_map_name
  else ret None.

(** mtl.rs:552-566, [Parser::parse_map_decal] *)
Definition parse_map_decal : M (option bytes) :=
  t <- peek ;;
  if is_tok t "decal" then expect_tag (lit "decal") ;;; parse_map_name
  else ret None.

(** mtl.rs:569-583, [Parser::parse_map_specular_exponent] *)
Definition parse_map_specular_exponent : M (option bytes) :=
  t <- peek ;;
  if is_tok t "map_Ns" then expect_tag (lit "map_Ns") ;;; parse_map_name
  else ret None.

(** mtl.rs:586-598, [Parser::parse_illumination_model] *)
Definition parse_illumination_model : M illumination :=
  expect_tag (lit "illum") ;;;
  model_number <- parse_usize ;;
  match model_number with
  | 0%N => ret Ambient
  | 1%N => ret AmbientDiffuse
  | 2%N => ret AmbientDiffuseSpecular
  | n => error UnknownIlluminationModel
           (lit "Unknown illumination model: " ++ show_N n ++ lit ".")
  end.

(** mtl.rs:601-625, [Parser::parse_newmtl] *)
Definition parse_newmtl : M bytes :=
  t <- next ;;
  match t with
  | Some st =>
      if bytes_eqb st (lit "newmtl") then
        t <- next ;;
        match t with
        | Some st => ret st
        | None => error EndOfFile (lit "Expected material name but got end of input.")
        end
      else
        error ExpectedTagStatement (lit "Expected `newmtl` but got " ++ st ++ lit ".")
  | None => error EndOfFile (lit "Expected `newmtl` but got end of input.")
  end.

(** mtl.rs:634-708, one round of the [loop] of [parse_material] *)
Definition parse_material_body (m : material) : M (step material material) :=
  let continue (m : material) : M (step material material) :=
    skip_zero_or_more_newlines fuel ;;; ret (Continue m) in
  t <- peek ;;
  if is_tok t "Ka" then c <- parse_ambient_component ;; continue (set_color_ambient m c)
  else if is_tok t "Kd" then c <- parse_diffuse_component ;; continue (set_color_diffuse m c)
  else if is_tok t "Ks" then c <- parse_specular_component ;; continue (set_color_specular m c)
  else if is_tok t "Ke" then c <- parse_emissive_component ;; continue (set_color_emissive m c)
  else if is_tok t "d" then x <- parse_dissolve_component ;; continue (set_dissolve m x)
  else if is_tok t "illum" then
    i <- parse_illumination_model ;; continue (set_illumination_model m i)
  else if is_tok t "Ns" then x <- parse_specular_exponent ;; continue (set_specular_exponent m x)
  else if is_tok t "Ni" then x <- parse_optical_density ;; continue (set_optical_density m (Some x))
  else if is_tok t "map_Ka" then x <- parse_map_ambient ;; continue (set_map_ambient m x)
  else if is_tok t "map_Kd" then x <- parse_map_diffuse ;; continue (set_map_diffuse m x)
  else if is_tok t "map_Ks" then x <- parse_map_specular ;; continue (set_map_specular m x)
  else if is_tok t "map_Ke" then x <- parse_map_emissive ;; continue (set_map_emissive m x)
  else if is_tok t "map_Ns" then
    x <- parse_map_specular_exponent ;; continue (set_map_specular_exponent m x)
  else if is_tok t "map_Bump" || is_tok t "bump" then
    x <- parse_map_bump ;; continue (set_map_bump m x)
  else if is_tok t "disp" then
    x <- parse_map_displacement ;; continue (set_map_displacement m x)
  else if is_tok t "map_d" then x <- parse_map_dissolve ;; continue (set_map_dissolve m x)
  else if is_tok t "decal" then x <- parse_map_decal ;; continue (set_map_decal m x)
  else
    match t with
    | None => ret (Break m)
    | Some other_st =>
        if bytes_eqb other_st (lit "newmtl") then ret (Break m)
        else error ErrorParsingMaterial
               (lit "Could not parse the token `" ++ other_st ++ lit "`.")
    end.

(** mtl.rs:628-711, [Parser::parse_material] *)
Definition parse_material : M material :=
  name <- parse_newmtl ;;
  let m := set_name material_new name in
  skip_zero_or_more_newlines fuel ;;;
  loop fuel parse_material_body m.

(** mtl.rs:774-792, [Parser::parse_mtlset] *)
Definition parse_mtlset : M material_set :=
  skip_zero_or_more_newlines fuel ;;;
  materials <- loop fuel (fun materials =>
    t <- peek ;;
    if is_tok t "newmtl" then
      m <- parse_material ;;
      ret (Continue (materials ++ [m]))
    else ret (Break materials)) [] ;;
  t <- peek ;;
  match t with
  | Some st =>
      error ExpectedEndOfInput (lit "Expected end of input but got `" ++ st ++ lit "`.")
  | None => ret (mkMaterialSet materials)
  end.

End Parser.

(** A loop takes at most one round per token plus one (C02). *)
Definition fuel_for (input : bytes) : nat := Datatypes.S (length input).

(** mtl.rs:70-72, [parse].  The code has no arithmetic, assertion or indexing
    that depends on the build mode. *)
Definition parse (input : bytes) : outcome (parse_error error_kind) material_set :=
  fst (parse_mtlset (fuel_for input) (parser_new input)).
