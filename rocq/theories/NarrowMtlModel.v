(** The parser of src/mtl.rs where [usize] has [bits] bits.

    The one whole number that it reads is the number of an illumination model; all
    functions that do not read one are those of MtlModel.v. *)
From Verif Require Export MtlModel NarrowModel.
Import MtlTypes MtlModel.
Local Open Scope list_scope.

Section Parser.
Context {S : token_source}.

(** A method of [mtl::Parser]. *)
Local Notation M := (M S error_kind).

(** [fuel]: bound on the number of rounds of each loop. *)
Context (bits : Z) (fuel : nat).

(** mtl.rs:366-375, [Parser::parse_usize] *)
Definition narrow_parse_usize : M N :=
  st <- next_string ;;
  match narrow_usize bits st with
  | Some val => ret val
  | None => error ExpectedInteger (lit "Expected integer but got " ++ st)
  end.

(** mtl.rs:586-598, [Parser::parse_illumination_model] *)
Definition narrow_parse_illumination_model : M illumination :=
  expect_tag (lit "illum") ;;;
  model_number <- narrow_parse_usize ;;
  match model_number with
  | 0%N => ret Ambient
  | 1%N => ret AmbientDiffuse
  | 2%N => ret AmbientDiffuseSpecular
  | n => error UnknownIlluminationModel
           (lit "Unknown illumination model: " ++ show_N n ++ lit ".")
  end.

(** mtl.rs:634-708, one round of the [loop] of [parse_material] *)
Definition narrow_parse_material_body (m : material) : M (step material material) :=
  let continue (m : material) : M (step material material) :=
    skip_zero_or_more_newlines fuel ;;; ret (Continue m) in
  t <- peek ;;
  if is_tok t "Ka" then c <- parse_ambient_component ;; continue (set_color_ambient m c)
  else if is_tok t "Kd" then c <- parse_diffuse_component ;; continue (set_color_diffuse m c)
  else if is_tok t "Ks" then c <- parse_specular_component ;; continue (set_color_specular m c)
  else if is_tok t "Ke" then c <- parse_emissive_component ;; continue (set_color_emissive m c)
  else if is_tok t "d" then x <- parse_dissolve_component ;; continue (set_dissolve m x)
  else if is_tok t "illum" then
    i <- narrow_parse_illumination_model ;; continue (set_illumination_model m i)
  else if is_tok t "Ns" then x <- parse_specular_exponent ;; continue (set_specular_exponent m x)
  else if is_tok t "Ni" then x <- parse_optical_density ;; continue (set_optical_density m (Some x))
  else if is_tok t "map_Ka" then x <- parse_map_ambient ;; continue (set_map_ambient m x)
  else if is_tok t "map_Kd" then x <- parse_map_diffuse ;; continue (set_map_diffuse m x)
  else if is_tok t "map_Ks" then x <- parse_map_specular ;; continue (set_map_specular m x)
  else if is_tok t "map_Ke" then x <- parse_map_emissive ;; continue (set_map_emissive m x)
  else if is_tok t "map_Ns" then
    x <- parse_map_specular_exponent ;; continue (set_map_specular_exponent m x)
  else if is_tok t "map_Bump" || is_tok t "bump" then
    x <- parse_map_bump ;; continue (set_map_bump m x)
  else if is_tok t "disp" then
    x <- parse_map_displacement ;; continue (set_map_displacement m x)
  else if is_tok t "map_d" then x <- parse_map_dissolve ;; continue (set_map_dissolve m x)
  else if is_tok t "decal" then x <- parse_map_decal ;; continue (set_map_decal m x)
  else
    match t with
    | None => ret (Break m)
    | Some other_st =>
        if bytes_eqb other_st (lit "newmtl") then ret (Break m)
        else error ErrorParsingMaterial
               (lit "Could not parse the token `" ++ other_st ++ lit "`.")
    end.

(** mtl.rs:628-711, [Parser::parse_material] *)
Definition narrow_parse_material : M material :=
  name <- parse_newmtl ;;
  let m := set_name material_new name in
  skip_zero_or_more_newlines fuel ;;;
  loop fuel narrow_parse_material_body m.

(** mtl.rs:774-792, [Parser::parse_mtlset] *)
Definition narrow_parse_mtlset : M material_set :=
  skip_zero_or_more_newlines fuel ;;;
  materials <- loop fuel (fun materials =>
    t <- peek ;;
    if is_tok t "newmtl" then
      m <- narrow_parse_material ;;
      ret (Continue (materials ++ [m]))
    else ret (Break materials)) [] ;;
  t <- peek ;;
  match t with
  | Some st =>
      error ExpectedEndOfInput (lit "Expected end of input but got `" ++ st ++ lit "`.")
  | None => ret (mkMaterialSet materials)
  end.

End Parser.

(** mtl.rs:70-72, [parse] *)
Definition narrow_parse_mtl (bits : Z) (input : bytes) : outcome (parse_error error_kind) material_set :=
  fst (narrow_parse_mtlset bits (fuel_for input) (parser_new input)).
