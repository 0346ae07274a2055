(** The crate's own tests of src/mtl.rs and of tests/test_mtl_parser.rs, run on the model.

    The bodies are the tests of /repo translated statement by statement: the
    same input text, the same calls, the same expected values (a decimal number
    is written as the double nearest to it).  They say nothing beyond those
    inputs; they are evidence that the model computes what the code computes. *)
From Coq Require Import String List NArith ZArith Floats.SpecFloat.
From Verif Require Import ParserBase MtlTypes MtlModel.
Import ListNotations.
Local Open Scope string_scope.
Local Open Scope list_scope.

(** [assert!(r.is_ok())], [assert!(r.is_err())] *)
Definition is_ok {E A} (r : outcome E A) : Prop :=
  match r with Ok _ => True | _ => False end.
Definition is_err {E A} (r : outcome E A) : Prop :=
  match r with Err _ => True | _ => False end.

(** [assert_eq!(r.unwrap_err().kind, kind)] *)
Definition fails_with {K A} (r : outcome (parse_error K) A) (kind : K) : Prop :=
  match r with Err e => err_kind e = kind | _ => False end.

(** src/mtl.rs:805, [test_parse_f64] *)
Example test_parse_f64 :
  let p0 := parser_new (lit "-1.929448") in
  let '(r1, p1) := MtlModel.parse_f64 p0 in
  r1 = Ok (S754_finite true 8689461293830749 (-52)).
Proof. vm_compute. repeat split. Qed.

(** src/mtl.rs:811, [test_parse_usize] *)
Example test_parse_usize :
  let p0 := parser_new (lit "    763   ") in
  let '(r1, p1) := MtlModel.parse_usize p0 in
  r1 = Ok (763%N).
Proof. vm_compute. repeat split. Qed.

(** src/mtl.rs:817, [test_parse_color] *)
Example test_parse_color :
  let p0 := parser_new (lit "    0.1345345 0.63453 0.982430   ") in
  let '(r1, p1) := MtlModel.parse_color p0 in
  r1 = Ok (mkColor (S754_finite false 4847116192547808 (-55)) (S754_finite false 5715338143110802 (-53)) (S754_finite false 8848942763835193 (-53))).
Proof. vm_compute. repeat split. Qed.

(** src/mtl.rs:841, [test_parse_ambient_component] *)
Example test_parse_ambient_component :
  let p0 := parser_new (lit "Ka 0.1345345 0.63453 0.982430") in
  let '(r1, p1) := MtlModel.parse_ambient_component p0 in
  r1 = Ok (mkColor (S754_finite false 4847116192547808 (-55)) (S754_finite false 5715338143110802 (-53)) (S754_finite false 8848942763835193 (-53))).
Proof. vm_compute. repeat split. Qed.

(** src/mtl.rs:854, [test_parse_diffuse_component] *)
Example test_parse_diffuse_component :
  let p0 := parser_new (lit "Kd 0.1345345 0.63453 0.982430") in
  let '(r1, p1) := MtlModel.parse_diffuse_component p0 in
  r1 = Ok (mkColor (S754_finite false 4847116192547808 (-55)) (S754_finite false 5715338143110802 (-53)) (S754_finite false 8848942763835193 (-53))).
Proof. vm_compute. repeat split. Qed.

(** src/mtl.rs:867, [test_parse_specular_component] *)
Example test_parse_specular_component :
  let p0 := parser_new (lit "Ks 0.1345345 0.63453 0.982430") in
  let '(r1, p1) := MtlModel.parse_specular_component p0 in
  r1 = Ok (mkColor (S754_finite false 4847116192547808 (-55)) (S754_finite false 5715338143110802 (-53)) (S754_finite false 8848942763835193 (-53))).
Proof. vm_compute. repeat split. Qed.

(** src/mtl.rs:880, [test_parse_emissive_component] *)
Example test_parse_emissive_component :
  let p0 := parser_new (lit "Ke 0.1345345 0.63453 0.982430") in
  let '(r1, p1) := MtlModel.parse_emissive_component p0 in
  r1 = Ok (mkColor (S754_finite false 4847116192547808 (-55)) (S754_finite false 5715338143110802 (-53)) (S754_finite false 8848942763835193 (-53))).
Proof. vm_compute. repeat split. Qed.

(** src/mtl.rs:893, [test_parse_dissolve_component] *)
Example test_parse_dissolve_component :
  let p0 := parser_new (lit "d 0.24325634") in
  let '(r1, p1) := MtlModel.parse_dissolve_component p0 in
  r1 = Ok (S754_finite false 8764233297436085 (-55)).
Proof. vm_compute. repeat split. Qed.

(** src/mtl.rs:902, [test_parse_specular_exponent] *)
Example test_parse_specular_exponent :
  let p0 := parser_new (lit "Ns 3.24325634") in
  let '(r1, p1) := MtlModel.parse_specular_exponent p0 in
  r1 = Ok (S754_finite false 7303164022145499 (-51)).
Proof. vm_compute. repeat split. Qed.

(** src/mtl.rs:911, [test_parse_optical_density] *)
Example test_parse_optical_density :
  let p0 := parser_new (lit "Ni 1.24325634") in
  let '(r1, p1) := MtlModel.parse_optical_density p0 in
  r1 = Ok (S754_finite false 5599128789550007 (-52)).
Proof. vm_compute. repeat split. Qed.

(** src/mtl.rs:920, [test_parse_map_ambient] *)
Example test_parse_map_ambient :
  let p0 := parser_new (lit "map_Ka ambient.png") in
  let '(r1, p1) := MtlModel.parse_map_ambient p0 in
  r1 = Ok (Some (lit "ambient.png")).
Proof. vm_compute. repeat split. Qed.

(** src/mtl.rs:929, [test_parse_map_diffuse] *)
Example test_parse_map_diffuse :
  let p0 := parser_new (lit "map_Kd diffuse.png") in
  let '(r1, p1) := MtlModel.parse_map_diffuse p0 in
  r1 = Ok (Some (lit "diffuse.png")).
Proof. vm_compute. repeat split. Qed.

(** src/mtl.rs:938, [test_parse_map_specular] *)
Example test_parse_map_specular :
  let p0 := parser_new (lit "map_Ks specular.png") in
  let '(r1, p1) := MtlModel.parse_map_specular p0 in
  r1 = Ok (Some (lit "specular.png")).
Proof. vm_compute. repeat split. Qed.

(** src/mtl.rs:947, [test_parse_map_emissive] *)
Example test_parse_map_emissive :
  let p0 := parser_new (lit "map_Ke emissive.png") in
  let '(r1, p1) := MtlModel.parse_map_emissive p0 in
  r1 = Ok (Some (lit "emissive.png")).
Proof. vm_compute. repeat split. Qed.

(** src/mtl.rs:956, [test_parse_map_bump1] *)
Example test_parse_map_bump1 :
  let p0 := parser_new (lit "map_Bump normal.png") in
  let '(r1, p1) := MtlModel.parse_map_bump p0 in
  r1 = Ok (Some (lit "normal.png")).
Proof. vm_compute. repeat split. Qed.

(** src/mtl.rs:965, [test_parse_map_bump2] *)
Example test_parse_map_bump2 :
  let p0 := parser_new (lit "bump normal.png") in
  let '(r1, p1) := MtlModel.parse_map_bump p0 in
  r1 = Ok (Some (lit "normal.png")).
Proof. vm_compute. repeat split. Qed.

(** src/mtl.rs:974, [test_parse_map_displacement] *)
Example test_parse_map_displacement :
  let p0 := parser_new (lit "disp roughness.png") in
  let '(r1, p1) := MtlModel.parse_map_displacement p0 in
  r1 = Ok (Some (lit "roughness.png")).
Proof. vm_compute. repeat split. Qed.

(** src/mtl.rs:983, [test_parse_map_dissolve] *)
Example test_parse_map_dissolve :
  let p0 := parser_new (lit "map_d alpha.png") in
  let '(r1, p1) := MtlModel.parse_map_dissolve p0 in
  r1 = Ok (Some (lit "alpha.png")).
Proof. vm_compute. repeat split. Qed.

(** src/mtl.rs:992, [test_parse_map_decal] *)
Example test_parse_map_decal :
  let p0 := parser_new (lit "decal decal.png") in
  let '(r1, p1) := MtlModel.parse_map_decal p0 in
  r1 = Ok (Some (lit "decal.png")).
Proof. vm_compute. repeat split. Qed.

(** src/mtl.rs:1001, [test_parse_illumination_model0] *)
Example test_parse_illumination_model0 :
  let p0 := parser_new (lit "illum 0") in
  let '(r1, p1) := MtlModel.parse_illumination_model p0 in
  r1 = Ok Ambient.
Proof. vm_compute. repeat split. Qed.

(** src/mtl.rs:1010, [test_parse_illumination_model1] *)
Example test_parse_illumination_model1 :
  let p0 := parser_new (lit "illum 1") in
  let '(r1, p1) := MtlModel.parse_illumination_model p0 in
  r1 = Ok AmbientDiffuse.
Proof. vm_compute. repeat split. Qed.

(** src/mtl.rs:1019, [test_parse_illumination_model2] *)
Example test_parse_illumination_model2 :
  let p0 := parser_new (lit "illum 2") in
  let '(r1, p1) := MtlModel.parse_illumination_model p0 in
  r1 = Ok AmbientDiffuseSpecular.
Proof. vm_compute. repeat split. Qed.

(** src/mtl.rs:1028, [test_parse_illumination_model3] *)
Example test_parse_illumination_model3 :
  let p0 := parser_new (lit "illum 3") in
  let '(r1, p1) := MtlModel.parse_illumination_model p0 in
  is_err r1 /\
  fails_with r1 UnknownIlluminationModel.
Proof. vm_compute. repeat split. Qed.

(** src/mtl.rs:1039, [test_parse_newmtl1] *)
Example test_parse_newmtl1 :
  let p0 := parser_new (lit "newmtl material_name") in
  let '(r1, p1) := MtlModel.parse_newmtl p0 in
  r1 = Ok (lit "material_name").
Proof. vm_compute. repeat split. Qed.

(** src/mtl.rs:1048, [test_parse_newmtl2] *)
Example test_parse_newmtl2 :
  let p0 := parser_new (lit "newmtl    ") in
  let '(r1, p1) := MtlModel.parse_newmtl p0 in
  is_err r1.
Proof. vm_compute. repeat split. Qed.

(** src/mtl.rs:1069, [test_parse] *)
Example test_parse :
  
  MtlModel.parse (lit "
        # Blender MTL File: 'None'      \
        # Material Count: 1             \
                                        \
        newmtl Scene_-_Root             \
        Ns 225.000000                   \
        Ka 1.000000 1.000000 1.000000   \
        Kd 0.800000 0.800000 0.800000   \
        Ks 0.500000 0.500000 0.500000   \
        Ke 0.0 0.0 0.0                  \
        Ni 1.450000                     \
        d 1.000000                      \
        illum 2                         \
        map_Kd diffuse.jpg              \
        map_Bump normal.png             \
        map_Ks specular.jpg             \
        disp displacement.jpg           \
        ") =
   Ok (mkMaterialSet [mkMaterial (lit "Scene_-_Root") (mkColor (S754_finite false 4503599627370496 (-52)) (S754_finite false 4503599627370496 (-52)) (S754_finite false 4503599627370496 (-52))) (mkColor (S754_finite false 7205759403792794 (-53)) (S754_finite false 7205759403792794 (-53)) (S754_finite false 7205759403792794 (-53))) (mkColor (S754_finite false 4503599627370496 (-53)) (S754_finite false 4503599627370496 (-53)) (S754_finite false 4503599627370496 (-53))) (mkColor (S754_zero false) (S754_zero false) (S754_zero false)) (S754_finite false 7916483719987200 (-45)) (S754_finite false 4503599627370496 (-52)) (Some (S754_finite false 6530219459687219 (-52))) AmbientDiffuseSpecular None (Some (lit "diffuse.jpg")) (Some (lit "specular.jpg")) None None (Some (lit "normal.png")) (Some (lit "displacement.jpg")) None None]).
Proof. vm_compute. repeat split. Qed.

(** src/mtl.rs:1119, [test_parse_multiple_materials] *)
Example test_parse_multiple_materials :
  
  MtlModel.parse (lit "
        # Blender MTL File: 'None'                                             \
        # Material Count: 1                                                    \
                                                                               \
        newmtl Scene_-_Root                                                    \
        Ns 225.000000                                                          \
        Ka 1.000000 1.000000 1.000000                                          \
        Kd 0.800000 0.800000 0.800000                                          \
        Ks 0.500000 0.500000 0.500000                                          \
        Ke 0.0 0.0 0.0                                                         \
        Ni 1.450000                                                            \
        d 1.000000                                                             \
        illum 2                                                                \
        map_Kd diffuse.jpg                                                     \
        map_Bump normal.png                                                    \
        map_Ks specular.jpg                                                    \
        disp displacement.jpg                                                  \
        decal decal.jpg                                                        \
                                                                               \
        # This is a bright green material.  When applied to an object, it will \
        # remain bright green regardless of any lighting in the scene.         \
        newmtl neon_green                                                      \
        Kd 0.0000 1.0000 0.0000                                                \
        illum 0                                                                \
                                                                               \
        # This is a flat green material.                                       \
        newmtl flat_green                                                      \
        Ka 0.0000 1.0000 0.0000                                                \
        Kd 0.0000 1.0000 0.0000                                                \
        illum 1                                                                \
                                                                               \
        # This is a flat green, partially dissolved material.                  \
        newmtl diss_green                                                      \
        Ka 0.0000 1.0000 0.0000                                                \
        Kd 0.0000 1.0000 0.0000                                                \
        d 0.8000                                                               \
        illum 1                                                                \
                                                                               \
        # This is a shiny green material.  When applied to an object, it       \
        # shows a white specular highlight.                                    \
        newmtl shiny_green                                                     \
        Ka 0.0000 1.0000 0.0000                                                \
        Kd 0.0000 1.0000 0.0000                                                \
        Ks 1.0000 1.0000 1.0000                                                \
        Ns 200.0000                                                            \
        illum 1                                                                \
        ") =
   Ok (mkMaterialSet [mkMaterial (lit "Scene_-_Root") (mkColor (S754_finite false 4503599627370496 (-52)) (S754_finite false 4503599627370496 (-52)) (S754_finite false 4503599627370496 (-52))) (mkColor (S754_finite false 7205759403792794 (-53)) (S754_finite false 7205759403792794 (-53)) (S754_finite false 7205759403792794 (-53))) (mkColor (S754_finite false 4503599627370496 (-53)) (S754_finite false 4503599627370496 (-53)) (S754_finite false 4503599627370496 (-53))) (mkColor (S754_zero false) (S754_zero false) (S754_zero false)) (S754_finite false 7916483719987200 (-45)) (S754_finite false 4503599627370496 (-52)) (Some (S754_finite false 6530219459687219 (-52))) AmbientDiffuseSpecular None (Some (lit "diffuse.jpg")) (Some (lit "specular.jpg")) None None (Some (lit "normal.png")) (Some (lit "displacement.jpg")) None (Some (lit "decal.jpg")); mkMaterial (lit "neon_green") color_zero (mkColor (S754_zero false) (S754_finite false 4503599627370496 (-52)) (S754_zero false)) color_zero color_zero (S754_zero false) (S754_finite false 4503599627370496 (-52)) None Ambient None None None None None None None None None; mkMaterial (lit "flat_green") (mkColor (S754_zero false) (S754_finite false 4503599627370496 (-52)) (S754_zero false)) (mkColor (S754_zero false) (S754_finite false 4503599627370496 (-52)) (S754_zero false)) color_zero color_zero (S754_zero false) (S754_finite false 4503599627370496 (-52)) None AmbientDiffuse None None None None None None None None None; mkMaterial (lit "diss_green") (mkColor (S754_zero false) (S754_finite false 4503599627370496 (-52)) (S754_zero false)) (mkColor (S754_zero false) (S754_finite false 4503599627370496 (-52)) (S754_zero false)) color_zero color_zero (S754_zero false) (S754_finite false 7205759403792794 (-53)) None AmbientDiffuse None None None None None None None None None; mkMaterial (lit "shiny_green") (mkColor (S754_zero false) (S754_finite false 4503599627370496 (-52)) (S754_zero false)) (mkColor (S754_zero false) (S754_finite false 4503599627370496 (-52)) (S754_zero false)) (mkColor (S754_finite false 4503599627370496 (-52)) (S754_finite false 4503599627370496 (-52)) (S754_finite false 4503599627370496 (-52))) color_zero (S754_finite false 7036874417766400 (-45)) (S754_finite false 4503599627370496 (-52)) None AmbientDiffuse None None None None None None None None None]).
Proof. vm_compute. repeat split. Qed.

(** tests/test_mtl_parser.rs, case 1 *)
Example mtl_case1 :
  MtlModel.parse (lit "") =
  Ok (mkMaterialSet []).
Proof. vm_compute. reflexivity. Qed.

(** tests/test_mtl_parser.rs, case 2 *)
Example mtl_case2 :
  MtlModel.parse (lit "
                    newmtl frost_wind
                    Ka 0.2 0.2 0.2
                    Kd 0.6 0.6 0.6
                    Ks 0.1 0.1 0.1
                    d 1
                    Ns 200
                    illum 2
                    map_d window.png
                ") =
  Ok (mkMaterialSet [mkMaterial (lit "frost_wind") (mkColor (S754_finite false 7205759403792794 (-55)) (S754_finite false 7205759403792794 (-55)) (S754_finite false 7205759403792794 (-55))) (mkColor (S754_finite false 5404319552844595 (-53)) (S754_finite false 5404319552844595 (-53)) (S754_finite false 5404319552844595 (-53))) (mkColor (S754_finite false 7205759403792794 (-56)) (S754_finite false 7205759403792794 (-56)) (S754_finite false 7205759403792794 (-56))) (mkColor (S754_zero false) (S754_zero false) (S754_zero false)) (S754_finite false 7036874417766400 (-45)) (S754_finite false 4503599627370496 (-52)) None AmbientDiffuseSpecular None None None None None None None (Some (lit "window.png")) None]).
Proof. vm_compute. reflexivity. Qed.

(** tests/test_mtl_parser.rs, case 3 *)
Example mtl_case3 :
  MtlModel.parse (lit "
                    newmtl cube
                    Ns 10.0000
                    Ni 1.5000
                    d 1.0000
                    illum 2
                    Ka 0.0000 0.0000 0.0000
                    Kd 0.5880 0.5880 0.5880
                    Ks 0.0000 0.0000 0.0000
                    Ke 0.3000 0.3000 0.3000
                    map_Ka cube.png
                    map_Kd cube.png
                ") =
  Ok (mkMaterialSet [mkMaterial (lit "cube") (mkColor (S754_zero false) (S754_zero false) (S754_zero false)) (mkColor (S754_finite false 5296233161787703 (-53)) (S754_finite false 5296233161787703 (-53)) (S754_finite false 5296233161787703 (-53))) (mkColor (S754_zero false) (S754_zero false) (S754_zero false)) (mkColor (S754_finite false 5404319552844595 (-54)) (S754_finite false 5404319552844595 (-54)) (S754_finite false 5404319552844595 (-54))) (S754_finite false 5629499534213120 (-49)) (S754_finite false 4503599627370496 (-52)) (Some (S754_finite false 6755399441055744 (-52))) AmbientDiffuseSpecular (Some (lit "cube.png")) (Some (lit "cube.png")) None None None None None None None]).
Proof. vm_compute. reflexivity. Qed.

(** tests/test_mtl_parser.rs, case 4 *)
Example mtl_case4 :
  MtlModel.parse (lit "
                    newmtl fresnel_blu
                    Ka 0.0000 0.0000 0.0000
                    Kd 0.0000 0.0000 0.0000
                    Ks 0.6180 0.8760 0.1430
                    Ns 200
                    illum 1
                    map_d fresnel_blu_dissolve.png

                    newmtl real_windsh
                    Ka 0.0000 0.0000 0.0000
                    Kd 0.0000 0.0000 0.0000
                    Ks 0.0000 0.0000 0.0000
                    Ns 200
                    Ni 1.5000
                    illum 2
                    decal decal.jpg

                    newmtl fresnel_win
                    Ka 0.0000 0.0000 1.0000
                    Kd 0.0000 0.0000 1.0000
                    Ks 0.6180 0.8760 0.1430
                    Ns 200
                    Ni 1.2000
                    illum 0

                    newmtl tin
                    Ka 0.5000 0.5000 0.5000
                    Kd 0.3000 0.2540 0.3128
                    Ks 0.3245 0.2976 0.1234
                    Ns 200
                    illum 2
                    map_Bump tin_bump.png
                    map_Ka tin_Ka.png
                    map_Kd tin_Kd.png
                    map_Ks tin_Ks.png

                    newmtl material
                    Ni 3.4924
                    illum 2
                    d 0.9
                    map_Ke material_Ke.png
                    map_Ka material_Ka.png
                    map_Kd material_Kd.png
                    map_Ks material_Ks.png
                    bump material_bump.png
                    map_Ns material_Ns.png
                    disp material_displacement.png

                ") =
  Ok (mkMaterialSet [mkMaterial (lit "fresnel_blu") (mkColor (S754_zero false) (S754_zero false) (S754_zero false)) (mkColor (S754_zero false) (S754_zero false) (S754_zero false)) (mkColor (S754_finite false 5566449139429933 (-53)) (S754_finite false 7890306547153109 (-53)) (S754_finite false 5152117973711847 (-55))) (mkColor (S754_zero false) (S754_zero false) (S754_zero false)) (S754_finite false 7036874417766400 (-45)) (S754_finite false 4503599627370496 (-52)) None AmbientDiffuse None None None None None None None (Some (lit "fresnel_blu_dissolve.png")) None; mkMaterial (lit "real_windsh") (mkColor (S754_zero false) (S754_zero false) (S754_zero false)) (mkColor (S754_zero false) (S754_zero false) (S754_zero false)) (mkColor (S754_zero false) (S754_zero false) (S754_zero false)) (mkColor (S754_zero false) (S754_zero false) (S754_zero false)) (S754_finite false 7036874417766400 (-45)) (S754_finite false 4503599627370496 (-52)) (Some (S754_finite false 6755399441055744 (-52))) AmbientDiffuseSpecular None None None None None None None None (Some (lit "decal.jpg")); mkMaterial (lit "fresnel_win") (mkColor (S754_zero false) (S754_zero false) (S754_finite false 4503599627370496 (-52))) (mkColor (S754_zero false) (S754_zero false) (S754_finite false 4503599627370496 (-52))) (mkColor (S754_finite false 5566449139429933 (-53)) (S754_finite false 7890306547153109 (-53)) (S754_finite false 5152117973711847 (-55))) (mkColor (S754_zero false) (S754_zero false) (S754_zero false)) (S754_finite false 7036874417766400 (-45)) (S754_finite false 4503599627370496 (-52)) (Some (S754_finite false 5404319552844595 (-52))) Ambient None None None None None None None None None; mkMaterial (lit "tin") (mkColor (S754_finite false 4503599627370496 (-53)) (S754_finite false 4503599627370496 (-53)) (S754_finite false 4503599627370496 (-53))) (mkColor (S754_finite false 5404319552844595 (-54)) (S754_finite false 4575657221408424 (-54)) (S754_finite false 5634903853765965 (-54))) (mkColor (S754_finite false 5845672316326904 (-54)) (S754_finite false 5361084996421838 (-54)) (S754_finite false 8891907104280307 (-56))) (mkColor (S754_zero false) (S754_zero false) (S754_zero false)) (S754_finite false 7036874417766400 (-45)) (S754_finite false 4503599627370496 (-52)) None AmbientDiffuseSpecular (Some (lit "tin_Ka.png")) (Some (lit "tin_Kd.png")) (Some (lit "tin_Ks.png")) None None (Some (lit "tin_bump.png")) None None None; mkMaterial (lit "material") (mkColor (S754_zero false) (S754_zero false) (S754_zero false)) (mkColor (S754_zero false) (S754_zero false) (S754_zero false)) (mkColor (S754_zero false) (S754_zero false) (S754_zero false)) (mkColor (S754_zero false) (S754_zero false) (S754_zero false)) (S754_zero false) (S754_finite false 8106479329266893 (-53)) (Some (S754_finite false 7864185669314360 (-51))) AmbientDiffuseSpecular (Some (lit "material_Ka.png")) (Some (lit "material_Kd.png")) (Some (lit "material_Ks.png")) (Some (lit "material_Ke.png")) (Some (lit "material_Ns.png")) (Some (lit "material_bump.png")) (Some (lit "material_displacement.png")) None None]).
Proof. vm_compute. reflexivity. Qed.

(** src/mtl.rs:9-66 and 715-773, the examples of the documentation of [parse] and
    of [parse_mtlset]: the text and the value expected are the same. *)
Example doc_parse :
  MtlModel.parse (lit "
    newmtl my_material
    Ka 0.0435 0.0435 0.0435
    Kd 0.1086 0.1086 0.1086
    Ks 0.0000 0.0000 0.0000
    illum 2
    d 0.6600
    Ns 10.0000
    Ni 1.19713
    map_Ke emissive.jpg
    map_Ka ambient.jpg
    map_Kd diffuse.jpg
    map_Ks specular.jpg
    map_Ns specular_exponent.jpg
    map_d dissolve.png
    disp displacement.png
    decal decal.jpg
    bump height.png
") =
  Ok (mkMaterialSet [mkMaterial (lit "my_material")
    (mkColor (S754_finite false 6269010681299730 (-57)) (S754_finite false 6269010681299730 (-57)) (S754_finite false 6269010681299730 (-57))) (mkColor (S754_finite false 7825454712518974 (-56)) (S754_finite false 7825454712518974 (-56)) (S754_finite false 7825454712518974 (-56)))
    (mkColor (S754_zero false) (S754_zero false) (S754_zero false)) (mkColor (S754_zero false) (S754_zero false) (S754_zero false))
    (S754_finite false 5629499534213120 (-49)) (S754_finite false 5944751508129055 (-53))
    (Some (S754_finite false 5391394221914042 (-52))) AmbientDiffuseSpecular
    (Some (lit "ambient.jpg")) (Some (lit "diffuse.jpg")) (Some (lit "specular.jpg")) (Some (lit "emissive.jpg")) (Some (lit "specular_exponent.jpg")) (Some (lit "height.png")) (Some (lit "displacement.png")) (Some (lit "dissolve.png")) (Some (lit "decal.jpg"))]).
Proof. vm_compute. reflexivity. Qed.
