(** The crate's own tests of src/obj.rs and of tests/, run on the model.

    The bodies are the tests of /repo translated statement by statement: the
    same input text, the same calls, the same expected values (a decimal number
    is written as the double nearest to it).  They say nothing beyond those
    inputs; they are evidence that the model computes what the code computes.
    tests/test_obj_parser.rs is in ConformTeapot.v. *)
From Coq Require Import String List NArith ZArith Floats.SpecFloat.
From Verif Require Import ParserBase ObjTypes ObjModel.
Import ListNotations.
Local Open Scope string_scope.
Local Open Scope list_scope.

(** [assert!(r.is_ok())], [assert!(r.is_err())] *)
Definition is_ok {E A} (r : outcome E A) : Prop :=
  match r with Ok _ => True | _ => False end.
Definition is_err {E A} (r : outcome E A) : Prop :=
  match r with Err _ => True | _ => False end.

(** The vector a parser function pushed on, and the count it returned. *)
Definition pushed {E A} (r : outcome E (nat * list A)) (l : list A) : Prop :=
  match r with Ok (_, l') => l' = l | _ => False end.
Definition counted {E A} (r : outcome E (nat * list A)) (c : outcome E nat) : Prop :=
  match r with Ok (n, _) => c = Ok n | _ => False end.

(** The same for a face test whose indices are too large to be compared as
    unary numbers: elements with binary indices. *)
Inductive index' := V' (v : N) | VT' (v vt : N) | VN' (v vn : N) | VTN' (v vt vn : N).
Inductive element' := Point' (a : index') | Line' (a b : index') | Face' (a b c : index').
Definition index_big (i : vtn_index) : index' :=
  match i with
  | V v => V' (N.of_nat v)
  | VT v vt => VT' (N.of_nat v) (N.of_nat vt)
  | VN v vn => VN' (N.of_nat v) (N.of_nat vn)
  | VTN v vt vn => VTN' (N.of_nat v) (N.of_nat vt) (N.of_nat vn)
  end.
Definition element_big (e : element) : element' :=
  match e with
  | Point a => Point' (index_big a)
  | Line a b => Line' (index_big a) (index_big b)
  | Face a b c => Face' (index_big a) (index_big b) (index_big c)
  end.
Definition pushed_big {E} (r : outcome E (nat * list element)) (l : list element') : Prop :=
  match r with Ok (_, l') => map element_big l' = l | _ => False end.

(** More rounds than any loop of these tests takes. *)
Definition fuel : nat := 200.

(** src/obj.rs:1708, [test_parse_f64] *)
Example test_parse_f64 :
  let p0 := parser_new (lit "-1.929448") in
  let '(r1, p1) := ObjModel.parse_f64 p0 in
  r1 = Ok (S754_finite true 8689461293830749 (-52)).
Proof. vm_compute. repeat split. Qed.

(** src/obj.rs:1714, [test_parse_isize] *)
Example test_parse_isize :
  let p0 := parser_new (lit "    763   ") in
  let '(r1, p1) := ObjModel.parse_isize p0 in
  r1 = Ok (763%Z).
Proof. vm_compute. repeat split. Qed.

(** src/obj.rs:1729, [test_parse_vertex1] *)
Example test_parse_vertex1 :
  let p0 := parser_new (lit "v -1.929448 13.329624 -5.221914
") in
  let '(r1, p1) := ObjModel.parse_vertex p0 in
  r1 = Ok (mkVertex (S754_finite true 8689461293830749 (-52)) (S754_finite false 7503911209923603 (-49)) (S754_finite true 5879352486140194 (-50)) (S754_finite false 4503599627370496 (-52))).
Proof. vm_compute. repeat split. Qed.

(** src/obj.rs:1741, [test_parse_vertex2] *)
Example test_parse_vertex2 :
  let p0 := parser_new (lit "v -1.929448 13.329624 -5.221914 1.329624
") in
  let '(r1, p1) := ObjModel.parse_vertex p0 in
  r1 = Ok (mkVertex (S754_finite true 8689461293830749 (-52)) (S754_finite false 7503911209923603 (-49)) (S754_finite true 5879352486140194 (-50)) (S754_finite false 5988094150942868 (-52))).
Proof. vm_compute. repeat split. Qed.

(** src/obj.rs:1753, [test_parse_vertex3] *)
Example test_parse_vertex3 :
  let p0 := parser_new (lit "v -1.929448 13.329624 
") in
  let '(r1, p1) := ObjModel.parse_vertex p0 in
  is_err r1.
Proof. vm_compute. repeat split. Qed.

(** src/obj.rs:1759, [test_parse_vertex4] *)
Example test_parse_vertex4 :
  let p0 := parser_new (lit "v -1.929448 13.329624 -5.221914 1.329624
 v") in
  let '(r1, p1) := ObjModel.parse_vertex p0 in
  is_ok r1.
Proof. vm_compute. repeat split. Qed.

(** src/obj.rs:1765, [test_parse_vertex5] *)
Example test_parse_vertex5 :
  let p0 := parser_new (lit "v -6.207583 1.699077 8.466142
              v -14.299248 1.700244 8.468981 1.329624") in
  let '(r1, p1) := ObjModel.parse_vertex p0 in
  let '(r2, p2) := next (K:=ObjTypes.error_kind) p1 in
  let '(r3, p3) := ObjModel.parse_vertex p2 in
  r1 = Ok (mkVertex (S754_finite true 6989117121417856 (-50)) (S754_finite false 7651962544073780 (-52)) (S754_finite false 4766014244558213 (-49)) (S754_finite false 4503599627370496 (-52))) /\
  r2 = Ok (Some (lit "
")) /\
  r3 = Ok (mkVertex (S754_finite true 8049760995559789 (-49)) (S754_finite false 7657218244838922 (-52)) (S754_finite false 4767612459475976 (-49)) (S754_finite false 5988094150942868 (-52))).
Proof. vm_compute. repeat split. Qed.

(** src/obj.rs:1792, [test_parse_vertex6] *)
Example test_parse_vertex6 :
  let p0 := parser_new (lit "v -6.207583 1.699077 8.466142 v -14.299248 1.700244 8.468981 1.329624") in
  let '(r1, p1) := ObjModel.parse_vertex p0 in
  let '(r2, p2) := peek (K:=ObjTypes.error_kind) p1 in
  let '(r3, p3) := ObjModel.parse_vertex p2 in
  r1 = Ok (mkVertex (S754_finite true 6989117121417856 (-50)) (S754_finite false 7651962544073780 (-52)) (S754_finite false 4766014244558213 (-49)) (S754_finite false 4503599627370496 (-52))) /\
  r2 = Ok (Some (lit "v")) /\
  r3 = Ok (mkVertex (S754_finite true 8049760995559789 (-49)) (S754_finite false 7657218244838922 (-52)) (S754_finite false 4767612459475976 (-49)) (S754_finite false 5988094150942868 (-52))).
Proof. vm_compute. repeat split. Qed.

(** src/obj.rs:1825, [test_parse_texture_vertex1] *)
Example test_parse_texture_vertex1 :
  let p0 := parser_new (lit "vt -1.929448") in
  let '(r1, p1) := ObjModel.parse_texture_vertex p0 in
  r1 = Ok (mkTextureVertex (S754_finite true 8689461293830749 (-52)) (S754_zero false) (S754_zero false)).
Proof. vm_compute. repeat split. Qed.

(** src/obj.rs:1836, [test_parse_texture_vertex2] *)
Example test_parse_texture_vertex2 :
  let p0 := parser_new (lit "vt -1.929448 13.329624 -5.221914") in
  let '(r1, p1) := ObjModel.parse_texture_vertex p0 in
  r1 = Ok (mkTextureVertex (S754_finite true 8689461293830749 (-52)) (S754_finite false 7503911209923603 (-49)) (S754_finite true 5879352486140194 (-50))).
Proof. vm_compute. repeat split. Qed.

(** src/obj.rs:1847, [test_parse_texture_vertex3] *)
Example test_parse_texture_vertex3 :
  let p0 := parser_new (lit "vt -1.929448 13.329624 -5.221914
             vt -27.6068  31.1438    27.2099") in
  let '(r1, p1) := ObjModel.parse_texture_vertex p0 in
  let '(r2, p2) := next (K:=ObjTypes.error_kind) p1 in
  let '(r3, p3) := ObjModel.parse_texture_vertex p2 in
  r1 = Ok (mkTextureVertex (S754_finite true 8689461293830749 (-52)) (S754_finite false 7503911209923603 (-49)) (S754_finite true 5879352486140194 (-50))) /\
  r2 = Ok (Some (lit "
")) /\
  r3 = Ok (mkTextureVertex (S754_finite true 7770623387055738 (-48)) (S754_finite false 8766200379681328 (-48)) (S754_finite false 7658905968799279 (-48))).
Proof. vm_compute. repeat split. Qed.

(** src/obj.rs:1872, [test_parse_texture_vertex4] *)
Example test_parse_texture_vertex4 :
  let p0 := parser_new (lit "vt -1.929448 13.329624 -5.221914 vt -27.6068  31.1438    27.2099") in
  let '(r1, p1) := ObjModel.parse_texture_vertex p0 in
  let '(r2, p2) := peek (K:=ObjTypes.error_kind) p1 in
  let '(r3, p3) := ObjModel.parse_texture_vertex p2 in
  r1 = Ok (mkTextureVertex (S754_finite true 8689461293830749 (-52)) (S754_finite false 7503911209923603 (-49)) (S754_finite true 5879352486140194 (-50))) /\
  r2 = Ok (Some (lit "vt")) /\
  r3 = Ok (mkTextureVertex (S754_finite true 7770623387055738 (-48)) (S754_finite false 8766200379681328 (-48)) (S754_finite false 7658905968799279 (-48))).
Proof. vm_compute. repeat split. Qed.

(** src/obj.rs:1903, [test_parse_normal_vertex1] *)
Example test_parse_normal_vertex1 :
  let p0 := parser_new (lit "vn  -0.966742  -0.255752  9.97231e-09") in
  let '(r1, p1) := ObjModel.parse_normal_vertex p0 in
  r1 = Ok (mkNormalVertex (S754_finite true 8707637821926816 (-53)) (S754_finite true 4607218447597036 (-54)) (S754_finite false 6027891520100581 (-79))).
Proof. vm_compute. repeat split. Qed.

(** src/obj.rs:1914, [test_parse_normal_vertex2] *)
Example test_parse_normal_vertex2 :
  let p0 := parser_new (lit "vn -1.929448 13.329624 -5.221914
             vn -27.6068  31.1438    27.2099") in
  let '(r1, p1) := ObjModel.parse_normal_vertex p0 in
  let '(r2, p2) := next (K:=ObjTypes.error_kind) p1 in
  let '(r3, p3) := ObjModel.parse_normal_vertex p2 in
  r1 = Ok (mkNormalVertex (S754_finite true 8689461293830749 (-52)) (S754_finite false 7503911209923603 (-49)) (S754_finite true 5879352486140194 (-50))) /\
  r2 = Ok (Some (lit "
")) /\
  r3 = Ok (mkNormalVertex (S754_finite true 7770623387055738 (-48)) (S754_finite false 8766200379681328 (-48)) (S754_finite false 7658905968799279 (-48))).
Proof. vm_compute. repeat split. Qed.

(** src/obj.rs:1939, [test_parse_normal_vertex3] *)
Example test_parse_normal_vertex3 :
  let p0 := parser_new (lit "vn -1.929448 13.329624 -5.221914 vn -27.6068  31.1438    27.2099") in
  let '(r1, p1) := ObjModel.parse_normal_vertex p0 in
  let '(r2, p2) := peek (K:=ObjTypes.error_kind) p1 in
  let '(r3, p3) := ObjModel.parse_normal_vertex p2 in
  r1 = Ok (mkNormalVertex (S754_finite true 8689461293830749 (-52)) (S754_finite false 7503911209923603 (-49)) (S754_finite true 5879352486140194 (-50))) /\
  r2 = Ok (Some (lit "vn")) /\
  r3 = Ok (mkNormalVertex (S754_finite true 7770623387055738 (-48)) (S754_finite false 8766200379681328 (-48)) (S754_finite false 7658905968799279 (-48))).
Proof. vm_compute. repeat split. Qed.

(** src/obj.rs:1967, [test_parse_object_name1] *)
Example test_parse_object_name1 :
  let p0 := parser_new (lit "o object_name 

") in
  let '(r1, p1) := ObjModel.parse_object_name fuel p0 in
  r1 = Ok (lit "object_name").
Proof. vm_compute. repeat split. Qed.

(** src/obj.rs:1973, [test_parse_object_name2] *)
Example test_parse_object_name2 :
  let p0 := parser_new (lit "o object_name") in
  let '(r1, p1) := ObjModel.parse_object_name fuel p0 in
  is_err r1.
Proof. vm_compute. repeat split. Qed.

(** src/obj.rs:1988, [test_parse_vtn_index1] *)
Example test_parse_vtn_index1 :
  let p0 := parser_new (lit "1291") in
  let '(r1, p1) := ObjModel.parse_vtn_index true (0, 1300) (0, 1300) (0, 1300) p0 in
  r1 = Ok (V 1290).
Proof. vm_compute. repeat split. Qed.

(** src/obj.rs:1996, [test_parse_vtn_index2] *)
Example test_parse_vtn_index2 :
  let p0 := parser_new (lit "1291/1315") in
  let '(r1, p1) := ObjModel.parse_vtn_index true (0, 1316) (0, 1316) (0, 1316) p0 in
  r1 = Ok (VT 1290 1314).
Proof. vm_compute. repeat split. Qed.

(** src/obj.rs:2004, [test_parse_vtn_index3] *)
Example test_parse_vtn_index3 :
  let p0 := parser_new (lit "1291/1315/1314") in
  let '(r1, p1) := ObjModel.parse_vtn_index true (0, 1316) (0, 1316) (0, 1316) p0 in
  r1 = Ok (VTN 1290 1314 1313).
Proof. vm_compute. repeat split. Qed.

(** src/obj.rs:2012, [test_parse_vtn_index4] *)
Example test_parse_vtn_index4 :
  let p0 := parser_new (lit "1291//1315") in
  let '(r1, p1) := ObjModel.parse_vtn_index true (0, 1316) (0, 1316) (0, 1316) p0 in
  r1 = Ok (VN 1290 1314).
Proof. vm_compute. repeat split. Qed.

(** src/obj.rs:2030, [test_parse_point1] *)
Example test_parse_point1 :
  let p0 := parser_new (lit "p 1 2 3 4 
") in
  let '(r1, p1) := ObjModel.parse_elements true fuel [] (0, 5) (0, 5) (0, 5) p0 in
  is_ok r1 /\
  pushed r1 [Point (V 0); Point (V 1); Point (V 2); Point (V 3)].
Proof. vm_compute. repeat split. Qed.

(** src/obj.rs:2044, [test_parse_point2] *)
Example test_parse_point2 :
  let p0 := parser_new (lit "p 1 1/2 3 4/5") in
  let '(r1, p1) := ObjModel.parse_elements true fuel [] (0, 6) (0, 6) (0, 6) p0 in
  is_err r1.
Proof. vm_compute. repeat split. Qed.

(** src/obj.rs:2053, [test_parse_line1] *)
Example test_parse_line1 :
  let p0 := parser_new (lit "l 297 38 118 108 
") in
  let '(r1, p1) := ObjModel.parse_elements true fuel [] (0, 300) (0, 300) (0, 300) p0 in
  is_ok r1 /\
  pushed r1 [Line (V 296) (V 37); Line (V 37) (V 117); Line (V 117) (V 107)].
Proof. vm_compute. repeat split. Qed.

(** src/obj.rs:2068, [test_parse_line2] *)
Example test_parse_line2 :
  let p0 := parser_new (lit "l 297/38 118/108 
") in
  let '(r1, p1) := ObjModel.parse_elements true fuel [] (0, 300) (0, 300) (0, 300) p0 in
  is_ok r1 /\
  pushed r1 [Line (VT 296 37) (VT 117 107)].
Proof. vm_compute. repeat split. Qed.

(** src/obj.rs:2079, [test_parse_line3] *)
Example test_parse_line3 :
  let p0 := parser_new (lit "l 297/38 118/108 324/398 
") in
  let '(r1, p1) := ObjModel.parse_elements true fuel [] (0, 400) (0, 400) (0, 400) p0 in
  is_ok r1 /\
  pushed r1 [Line (VT 296 37) (VT 117 107); Line (VT 117 107) (VT 323 397)].
Proof. vm_compute. repeat split. Qed.

(** src/obj.rs:2093, [test_parse_line4] *)
Example test_parse_line4 :
  let p0 := parser_new (lit "l 297/38 118 324 
") in
  let '(r1, p1) := ObjModel.parse_elements true fuel [] (0, 340) (0, 340) (0, 340) p0 in
  is_err r1.
Proof. vm_compute. repeat split. Qed.

(** src/obj.rs:2102, [test_parse_line5] *)
Example test_parse_line5 :
  let p0 := parser_new (lit "l 297 118/108 324/398 
") in
  let '(r1, p1) := ObjModel.parse_elements true fuel [] (0, 400) (0, 400) (0, 400) p0 in
  is_err r1.
Proof. vm_compute. repeat split. Qed.

(** src/obj.rs:2111, [test_parse_face1] *)
Example test_parse_face1 :
  let p0 := parser_new (lit "f 297 118 108
") in
  let '(r1, p1) := ObjModel.parse_elements true fuel [] (0, 340) (0, 340) (0, 340) p0 in
  is_ok r1 /\
  pushed r1 [Face (V 296) (V 117) (V 107)].
Proof. vm_compute. repeat split. Qed.

(** src/obj.rs:2126, [test_parse_face2] *)
Example test_parse_face2 :
  let p0 := parser_new (lit "f 297 118 108 324
") in
  let '(r1, p1) := ObjModel.parse_elements true fuel [] (0, 340) (0, 340) (0, 340) p0 in
  is_ok r1 /\
  pushed r1 [Face (V 296) (V 117) (V 107); Face (V 296) (V 107) (V 323)].
Proof. vm_compute. repeat split. Qed.

(** src/obj.rs:2140, [test_parse_face3] *)
Example test_parse_face3 :
  let p0 := parser_new (lit "f 297 118 108 324 398 
") in
  let '(r1, p1) := ObjModel.parse_elements true fuel [] (0, 400) (0, 400) (0, 400) p0 in
  is_ok r1 /\
  pushed r1 [Face (V 296) (V 117) (V 107); Face (V 296) (V 107) (V 323); Face (V 296) (V 323) (V 397)].
Proof. vm_compute. repeat split. Qed.

(** src/obj.rs:2155, [test_parse_face4] *)
Example test_parse_face4 :
  let p0 := parser_new (lit "f 297 118 
") in
  let '(r1, p1) := ObjModel.parse_face true fuel [] (0, 400) (0, 400) (0, 400) p0 in
  is_err r1.
Proof. vm_compute. repeat split. Qed.

(** src/obj.rs:2164, [test_parse_face5] *)
Example test_parse_face5 :
  let p0 := parser_new (lit "f 34184//34184 34088//34088 34079//34079 34084//34084 34091//34091 34076//34076
") in
  let '(r1, p1) := ObjModel.parse_elements true fuel [] (320, N.to_nat 35000) (320, N.to_nat 35000) (320, N.to_nat 35000) p0 in
  pushed_big r1 [Face' (VN' 33863 33863) (VN' 33767 33767) (VN' 33758 33758); Face' (VN' 33863 33863) (VN' 33758 33758) (VN' 33763 33763); Face' (VN' 33863 33863) (VN' 33763 33763) (VN' 33770 33770); Face' (VN' 33863 33863) (VN' 33770 33770) (VN' 33755 33755)].
Proof. vm_compute. repeat split. Qed.

(** src/obj.rs:2216, [test_parse_face6] *)
Example test_parse_face6 :
  let p0 := parser_new (lit "f 297/13/12 118/124/45 108/93/7
") in
  let '(r1, p1) := ObjModel.parse_elements true fuel [] (0, 340) (0, 340) (0, 340) p0 in
  is_ok r1 /\
  pushed r1 [Face (VTN 296 12 11) (VTN 117 123 44) (VTN 107 92 6)].
Proof. vm_compute. repeat split. Qed.

(** src/obj.rs:2240, [parse_group_name1] *)
Example parse_group_name1 :
  let p0 := parser_new (lit "g group") in
  let '(r1, p1) := ObjModel.parse_groups fuel [] p0 in
  is_ok r1 /\
  pushed r1 [lit "group"].
Proof. vm_compute. repeat split. Qed.

(** src/obj.rs:2251, [parse_group_name2] *)
Example parse_group_name2 :
  let p0 := parser_new (lit "g group1 group2 group3") in
  let '(r1, p1) := ObjModel.parse_groups fuel [] p0 in
  is_ok r1 /\
  pushed r1 [lit "group1"; lit "group2"; lit "group3"].
Proof. vm_compute. repeat split. Qed.

(** src/obj.rs:2275, [test_smoothing_group_name1] *)
Example test_smoothing_group_name1 :
  let p0 := parser_new (lit "s off") in
  let '(r1, p1) := ObjModel.parse_smoothing_group [] p0 in
  is_ok r1 /\
  pushed r1 [0%N].
Proof. vm_compute. repeat split. Qed.

(** src/obj.rs:2286, [test_smoothing_group_name2] *)
Example test_smoothing_group_name2 :
  let p0 := parser_new (lit "s 0") in
  let '(r1, p1) := ObjModel.parse_smoothing_group [] p0 in
  is_ok r1 /\
  pushed r1 [0%N].
Proof. vm_compute. repeat split. Qed.

(** src/obj.rs:2297, [test_smoothing_group_name3] *)
Example test_smoothing_group_name3 :
  let p0 := parser_new (lit "s 3434") in
  let '(r1, p1) := ObjModel.parse_smoothing_group [] p0 in
  is_ok r1 /\
  pushed r1 [3434%N].
Proof. vm_compute. repeat split. Qed.

(** src/obj.rs:2314, [test_mtllib_empty] *)
Example test_mtllib_empty :
  let p0 := parser_new (lit "mtllib       ") in
  let '(r1, p1) := ObjModel.parse_material_library_line fuel [] p0 in
  pushed r1 [] /\
  counted r1 (Ok 0).
Proof. vm_compute. repeat split. Qed.

(** src/obj.rs:2326, [test_mtllib1] *)
Example test_mtllib1 :
  let p0 := parser_new (lit "mtllib library1.mtl") in
  let '(r1, p1) := ObjModel.parse_material_library_line fuel [] p0 in
  pushed r1 [lit "library1.mtl"] /\
  counted r1 (Ok 1).
Proof. vm_compute. repeat split. Qed.

(** src/obj.rs:2338, [test_mtllib2] *)
Example test_mtllib2 :
  let p0 := parser_new (lit "mtllib library1.mtl library2.mtl library3.mtl") in
  let '(r1, p1) := ObjModel.parse_material_library_line fuel [] p0 in
  pushed r1 [lit "library1.mtl"; lit "library2.mtl"; lit "library3.mtl"] /\
  counted r1 (Ok 3).
Proof. vm_compute. repeat split. Qed.

(** src/obj.rs:2356, [objectset_tests] *)
Example test_parse_object_set1 :
  ObjModel.parse true (lit "                \
            o object1                         \
            g cube                            \
            v  0.0  0.0  0.0                  \
            v  0.0  0.0  1.0                  \
            v  0.0  1.0  0.0                  \
            v  0.0  1.0  1.0                  \
            v  1.0  0.0  0.0                  \
            v  1.0  0.0  1.0                  \
            v  1.0  1.0  0.0                  \
            v  1.0  1.0  1.0                  \
                                              \
            vn  0.0  0.0  1.0                 \
            vn  0.0  0.0 -1.0                 \
            vn  0.0  1.0  0.0                 \
            vn  0.0 -1.0  0.0                 \
            vn  1.0  0.0  0.0                 \
            vn -1.0  0.0  0.0                 \
                                              \
            f  1//2  7//2  5//2               \
            f  1//2  3//2  7//2               \
            f  1//6  4//6  3//6               \
            f  1//6  2//6  4//6               \
            f  3//3  8//3  7//3               \
            f  3//3  4//3  8//3               \
            f  5//5  7//5  8//5               \
            f  5//5  8//5  6//5               \
            f  1//4  5//4  6//4               \
            f  1//4  6//4  2//4               \
            f  2//1  6//1  8//1               \
            f  2//1  8//1  4//1               \
        ") =
  Ok (mkObjectSet [] [mkObject (lit "object1") [mkVertex (S754_zero false) (S754_zero false) (S754_zero false) (S754_finite false 4503599627370496 (-52)); mkVertex (S754_zero false) (S754_zero false) (S754_finite false 4503599627370496 (-52)) (S754_finite false 4503599627370496 (-52)); mkVertex (S754_zero false) (S754_finite false 4503599627370496 (-52)) (S754_zero false) (S754_finite false 4503599627370496 (-52)); mkVertex (S754_zero false) (S754_finite false 4503599627370496 (-52)) (S754_finite false 4503599627370496 (-52)) (S754_finite false 4503599627370496 (-52)); mkVertex (S754_finite false 4503599627370496 (-52)) (S754_zero false) (S754_zero false) (S754_finite false 4503599627370496 (-52)); mkVertex (S754_finite false 4503599627370496 (-52)) (S754_zero false) (S754_finite false 4503599627370496 (-52)) (S754_finite false 4503599627370496 (-52)); mkVertex (S754_finite false 4503599627370496 (-52)) (S754_finite false 4503599627370496 (-52)) (S754_zero false) (S754_finite false 4503599627370496 (-52)); mkVertex (S754_finite false 4503599627370496 (-52)) (S754_finite false 4503599627370496 (-52)) (S754_finite false 4503599627370496 (-52)) (S754_finite false 4503599627370496 (-52))] [] [mkNormalVertex (S754_zero false) (S754_zero false) (S754_finite false 4503599627370496 (-52)); mkNormalVertex (S754_zero false) (S754_zero false) (S754_finite true 4503599627370496 (-52)); mkNormalVertex (S754_zero false) (S754_finite false 4503599627370496 (-52)) (S754_zero false); mkNormalVertex (S754_zero false) (S754_finite true 4503599627370496 (-52)) (S754_zero false); mkNormalVertex (S754_finite false 4503599627370496 (-52)) (S754_zero false) (S754_zero false); mkNormalVertex (S754_finite true 4503599627370496 (-52)) (S754_zero false) (S754_zero false)] [lit "cube"] [0%N] [Face (VN 0 1) (VN 6 1) (VN 4 1); Face (VN 0 1) (VN 2 1) (VN 6 1); Face (VN 0 5) (VN 3 5) (VN 2 5); Face (VN 0 5) (VN 1 5) (VN 3 5); Face (VN 2 2) (VN 7 2) (VN 6 2); Face (VN 2 2) (VN 3 2) (VN 7 2); Face (VN 4 4) (VN 6 4) (VN 7 4); Face (VN 4 4) (VN 7 4) (VN 5 4); Face (VN 0 3) (VN 4 3) (VN 5 3); Face (VN 0 3) (VN 5 3) (VN 1 3); Face (VN 1 0) (VN 5 0) (VN 7 0); Face (VN 1 0) (VN 7 0) (VN 3 0)] [mkShapeEntry 0 [0] 0; mkShapeEntry 1 [0] 0; mkShapeEntry 2 [0] 0; mkShapeEntry 3 [0] 0; mkShapeEntry 4 [0] 0; mkShapeEntry 5 [0] 0; mkShapeEntry 6 [0] 0; mkShapeEntry 7 [0] 0; mkShapeEntry 8 [0] 0; mkShapeEntry 9 [0] 0; mkShapeEntry 10 [0] 0; mkShapeEntry 11 [0] 0] [mkGeometry None [0; 1; 2; 3; 4; 5; 6; 7; 8; 9; 10; 11]]]).
Proof. vm_compute. reflexivity. Qed.

(** tests/test_obj_parser2.rs, case 1 *)
Example obj_case1 :
  ObjModel.parse true (lit "
                    o  Object0                                      \
                    v  -36.84435  -31.289864  -23.619797  -8.21862  \
                    # 1 vertices                                    \
                                                                    \
                    vt  -44.275238  28.583176  -23.780418           \
                    # 1 texture vertices                            \
                                                                    \
                    vn  93.94331  -61.460472  -32.00753             \
                    # 1 normal vertices                             \
                                                                    \
                    g  Group0                                       \
                    g  Group1                                       \
                    s  0                                            \
                    g  Group2                                       \
                    s  1                                            \
                    g  Group3                                       \
                    f 1/1/1 1/1/1 1/1/1                             \
                    # 1 elements                                    \
                                                                    \
                    g  Group4                                       \
                    s  2                                            \
                    #### End Object 0                               \
                ") =
  Ok (mkObjectSet [] [mkObject (lit "Object0") [mkVertex (S754_finite true 5185381279084629 (-47)) (S754_finite true 8807313740679594 (-48)) (S754_finite true 6648381810485422 (-48)) (S754_finite true 4626671746187463 (-49))] [mkTextureVertex (S754_finite true 6231185792454376 (-47)) (S754_finite false 8045448798916582 (-48)) (S754_finite true 6693592602719665 (-48))] [mkNormalVertex (S754_finite false 6610672748592984 (-46)) (S754_finite true 8649792462412963 (-47)) (S754_finite true 4504659380657812 (-47))] [lit "Group0"; lit "Group1"; lit "Group2"; lit "Group3"; lit "Group4"] [0%N; 1%N; 2%N] [Face (VTN 0 0 0) (VTN 0 0 0) (VTN 0 0 0)] [mkShapeEntry 0 [3] 1] [mkGeometry None [0]]]).
Proof. vm_compute. reflexivity. Qed.

(** tests/test_obj_parser2.rs, case 2 *)
Example obj_case2 :
  ObjModel.parse true (lit "
                    o  Object0                                     \
                    v  -36.84435  -31.289864  -23.619797  -8.21862 \
                    # 1 vertices                                   \
                                                                   \
                    vt  -44.275238  28.583176  -23.780418          \
                    # 1 texture vertices                           \
                                                                   \
                    vn  93.94331  -61.460472  -32.00753            \
                    # 1 normal vertices                            \
                                                                   \
                    f 1/1/1 1/1/1 1/1/1                            \
                    # 1 elements                                   \
                                                                   \
                    #### End Object 0                              \
                ") =
  Ok (mkObjectSet [] [mkObject (lit "Object0") [mkVertex (S754_finite true 5185381279084629 (-47)) (S754_finite true 8807313740679594 (-48)) (S754_finite true 6648381810485422 (-48)) (S754_finite true 4626671746187463 (-49))] [mkTextureVertex (S754_finite true 6231185792454376 (-47)) (S754_finite false 8045448798916582 (-48)) (S754_finite true 6693592602719665 (-48))] [mkNormalVertex (S754_finite false 6610672748592984 (-46)) (S754_finite true 8649792462412963 (-47)) (S754_finite true 4504659380657812 (-47))] [lit "default"] [0%N] [Face (VTN 0 0 0) (VTN 0 0 0) (VTN 0 0 0)] [mkShapeEntry 0 [0] 0] [mkGeometry None [0]]]).
Proof. vm_compute. reflexivity. Qed.

(** tests/test_obj_parser2.rs, case 3 *)
Example obj_case3 :
  ObjModel.parse true (lit "
                    # diamond.obj                           \
                                                            \
                    g Object001                             \
                                                            \
                    v 0.000000E+00 0.000000E+00 78.0000     \
                    v 45.0000 45.0000 0.000000E+00          \
                    v 45.0000 -45.0000 0.000000E+00         \
                    v -45.0000 -45.0000 0.000000E+00        \
                    v -45.0000 45.0000 0.000000E+00         \
                    v 0.000000E+00 0.000000E+00 -78.0000    \
                                                            \
                    f     1 2 3                             \
                    f     1 3 4                             \
                    f     1 4 5                             \
                    f     1 5 2                             \
                    f     6 5 4                             \
                    f     6 4 3                             \
                    f     6 3 2                             \
                    f     6 2 1                             \
                    f     6 1 5                             \
                ") =
  Ok (mkObjectSet [] [mkObject (lit "") [mkVertex (S754_zero false) (S754_zero false) (S754_finite false 5488762045857792 (-46)) (S754_finite false 4503599627370496 (-52)); mkVertex (S754_finite false 6333186975989760 (-47)) (S754_finite false 6333186975989760 (-47)) (S754_zero false) (S754_finite false 4503599627370496 (-52)); mkVertex (S754_finite false 6333186975989760 (-47)) (S754_finite true 6333186975989760 (-47)) (S754_zero false) (S754_finite false 4503599627370496 (-52)); mkVertex (S754_finite true 6333186975989760 (-47)) (S754_finite true 6333186975989760 (-47)) (S754_zero false) (S754_finite false 4503599627370496 (-52)); mkVertex (S754_finite true 6333186975989760 (-47)) (S754_finite false 6333186975989760 (-47)) (S754_zero false) (S754_finite false 4503599627370496 (-52)); mkVertex (S754_zero false) (S754_zero false) (S754_finite true 5488762045857792 (-46)) (S754_finite false 4503599627370496 (-52))] [] [] [lit "Object001"] [0%N] [Face (V 0) (V 1) (V 2); Face (V 0) (V 2) (V 3); Face (V 0) (V 3) (V 4); Face (V 0) (V 4) (V 1); Face (V 5) (V 4) (V 3); Face (V 5) (V 3) (V 2); Face (V 5) (V 2) (V 1); Face (V 5) (V 1) (V 0); Face (V 5) (V 0) (V 4)] [mkShapeEntry 0 [0] 0; mkShapeEntry 1 [0] 0; mkShapeEntry 2 [0] 0; mkShapeEntry 3 [0] 0; mkShapeEntry 4 [0] 0; mkShapeEntry 5 [0] 0; mkShapeEntry 6 [0] 0; mkShapeEntry 7 [0] 0; mkShapeEntry 8 [0] 0] [mkGeometry None [0; 1; 2; 3; 4; 5; 6; 7; 8]]]).
Proof. vm_compute. reflexivity. Qed.

(** tests/test_obj_parser2.rs, case 4 *)
Example obj_case4 :
  ObjModel.parse true (lit "
                    mtllib master.mtl             \
                    o Object001                   \
                    v 0.000000 2.000000 2.000000  \
                    v 0.000000 0.000000 2.000000  \
                    v 2.000000 0.000000 2.000000  \
                    v 2.000000 2.000000 2.000000  \
                    v 0.000000 2.000000 0.000000  \
                    v 0.000000 0.000000 0.000000  \
                    v 2.000000 0.000000 0.000000  \
                    v 2.000000 2.000000 0.000000  \
                    # 8 vertices                  \
                                                  \
                    g front                       \
                    usemtl red                    \
                    f 1 2 3 4                     \
                    g back                        \
                    usemtl blue                   \
                    f 8 7 6 5                     \
                    g right                       \
                    usemtl green                  \
                    f 4 3 7 8                     \
                    g top                         \
                    usemtl gold                   \
                    f 5 1 4 8                     \
                    g left                        \
                    usemtl orange                 \
                    f 5 6 2 1                     \
                    g bottom                      \
                    usemtl purple                 \
                    f 2 6 7 3                     \
                    # 6 elements                  \
                ") =
  Ok (mkObjectSet [lit "master.mtl"] [mkObject (lit "Object001") [mkVertex (S754_zero false) (S754_finite false 4503599627370496 (-51)) (S754_finite false 4503599627370496 (-51)) (S754_finite false 4503599627370496 (-52)); mkVertex (S754_zero false) (S754_zero false) (S754_finite false 4503599627370496 (-51)) (S754_finite false 4503599627370496 (-52)); mkVertex (S754_finite false 4503599627370496 (-51)) (S754_zero false) (S754_finite false 4503599627370496 (-51)) (S754_finite false 4503599627370496 (-52)); mkVertex (S754_finite false 4503599627370496 (-51)) (S754_finite false 4503599627370496 (-51)) (S754_finite false 4503599627370496 (-51)) (S754_finite false 4503599627370496 (-52)); mkVertex (S754_zero false) (S754_finite false 4503599627370496 (-51)) (S754_zero false) (S754_finite false 4503599627370496 (-52)); mkVertex (S754_zero false) (S754_zero false) (S754_zero false) (S754_finite false 4503599627370496 (-52)); mkVertex (S754_finite false 4503599627370496 (-51)) (S754_zero false) (S754_zero false) (S754_finite false 4503599627370496 (-52)); mkVertex (S754_finite false 4503599627370496 (-51)) (S754_finite false 4503599627370496 (-51)) (S754_zero false) (S754_finite false 4503599627370496 (-52))] [] [] [lit "front"; lit "back"; lit "right"; lit "top"; lit "left"; lit "bottom"] [0%N] [Face (V 0) (V 1) (V 2); Face (V 0) (V 2) (V 3); Face (V 7) (V 6) (V 5); Face (V 7) (V 5) (V 4); Face (V 3) (V 2) (V 6); Face (V 3) (V 6) (V 7); Face (V 4) (V 0) (V 3); Face (V 4) (V 3) (V 7); Face (V 4) (V 5) (V 1); Face (V 4) (V 1) (V 0); Face (V 1) (V 5) (V 6); Face (V 1) (V 6) (V 2)] [mkShapeEntry 0 [0] 0; mkShapeEntry 1 [0] 0; mkShapeEntry 2 [1] 0; mkShapeEntry 3 [1] 0; mkShapeEntry 4 [2] 0; mkShapeEntry 5 [2] 0; mkShapeEntry 6 [3] 0; mkShapeEntry 7 [3] 0; mkShapeEntry 8 [4] 0; mkShapeEntry 9 [4] 0; mkShapeEntry 10 [5] 0; mkShapeEntry 11 [5] 0] [mkGeometry (Some (lit "red")) [0; 1]; mkGeometry (Some (lit "blue")) [2; 3]; mkGeometry (Some (lit "green")) [4; 5]; mkGeometry (Some (lit "gold")) [6; 7]; mkGeometry (Some (lit "orange")) [8; 9]; mkGeometry (Some (lit "purple")) [10; 11]]]).
Proof. vm_compute. reflexivity. Qed.

(** tests/test_obj_parser2.rs, case 5 *)
Example obj_case5 :
  ObjModel.parse true (lit "
                    mtllib material_library.mtl   \
                    o Object001                   \
                    v 0.000000 2.000000 0.000000  \
                    v 0.000000 0.000000 0.000000  \
                    v 2.000000 0.000000 0.000000  \
                    v 2.000000 2.000000 0.000000  \
                    v 4.000000 0.000000 -1.255298 \
                    v 4.000000 2.000000 -1.255298 \
                    vn 0.000000 0.000000 1.000000 \
                    vn 0.000000 0.000000 1.000000 \
                    vn 0.276597 0.000000 0.960986 \
                    vn 0.276597 0.000000 0.960986 \
                    vn 0.531611 0.000000 0.846988 \
                    vn 0.531611 0.000000 0.846988 \
                    # 6 vertices                  \
                    # 6 normals                   \
                                                  \
                    usemtl material1              \
                    g all                         \
                    s 1                           \
                    f 1//1 2//2 3//3 4//4         \
                    f 4//4 3//3 5//5 6//6         \
                    # 2 elements                  \
                                                  \
                    #### End Object001            \
                                                  \
                    o Object002                   \
                    v 0.000000 2.000000 0.000000  \
                    v 0.000000 0.000000 0.000000  \
                    v 2.000000 0.000000 0.000000  \
                    v 2.000000 2.000000 0.000000  \
                    v 4.000000 0.000000 -1.255298 \
                    v 4.000000 2.000000 -1.255298 \
                    vn 0.000000 0.000000 1.000000 \
                    vn 0.000000 0.000000 1.000000 \
                    vn 0.276597 0.000000 0.960986 \
                    vn 0.276597 0.000000 0.960986 \
                    vn 0.531611 0.000000 0.846988 \
                    vn 0.531611 0.000000 0.846988 \
                    # 6 vertices                  \
                    # 6 normals                   \
                                                  \
                    usemtl material2              \
                    g all                         \
                    s 1                           \
                    f 7//7   8//8 9//9   10//10   \
                    f 10//10 9//9 11//11 12//12   \
                    # 2 elements                  \
                                                  \
                    #### End Object002            \
                                                  \
                    o Object003                   \
                    v 0.000000 2.000000 0.000000  \
                    v 0.000000 0.000000 0.000000  \
                    v 2.000000 0.000000 0.000000  \
                    v 2.000000 2.000000 0.000000  \
                    v 4.000000 0.000000 -1.255298 \
                    v 4.000000 2.000000 -1.255298 \
                    vn 0.000000 0.000000 1.000000 \
                    vn 0.000000 0.000000 1.000000 \
                    vn 0.276597 0.000000 0.960986 \
                    vn 0.276597 0.000000 0.960986 \
                    vn 0.531611 0.000000 0.846988 \
                    vn 0.531611 0.000000 0.846988 \
                    # 6 vertices                  \
                    # 6 normals                   \
                                                  \
                    usemtl material3              \
                    g all                         \
                    s 1                           \
                    f 13//13 14//14 15//15 16//16 \
                    f 16//16 15//15 17//17 18//18 \
                    # 2 elements                  \
                                                  \
                    #### End Object003            \
                ") =
  Ok (mkObjectSet [lit "material_library.mtl"] [mkObject (lit "Object001") [mkVertex (S754_zero false) (S754_finite false 4503599627370496 (-51)) (S754_zero false) (S754_finite false 4503599627370496 (-52)); mkVertex (S754_zero false) (S754_zero false) (S754_zero false) (S754_finite false 4503599627370496 (-52)); mkVertex (S754_finite false 4503599627370496 (-51)) (S754_zero false) (S754_zero false) (S754_finite false 4503599627370496 (-52)); mkVertex (S754_finite false 4503599627370496 (-51)) (S754_finite false 4503599627370496 (-51)) (S754_zero false) (S754_finite false 4503599627370496 (-52)); mkVertex (S754_finite false 4503599627370496 (-50)) (S754_zero false) (S754_finite true 5653359605038929 (-52)) (S754_finite false 4503599627370496 (-52)); mkVertex (S754_finite false 4503599627370496 (-50)) (S754_finite false 4503599627370496 (-51)) (S754_finite true 5653359605038929 (-52)) (S754_finite false 4503599627370496 (-52))] [] [mkNormalVertex (S754_zero false) (S754_zero false) (S754_finite false 4503599627370496 (-52)); mkNormalVertex (S754_zero false) (S754_zero false) (S754_finite false 4503599627370496 (-52)); mkNormalVertex (S754_finite false 4982728584527188 (-54)) (S754_zero false) (S754_finite false 8655792383016527 (-53)); mkNormalVertex (S754_finite false 4982728584527188 (-54)) (S754_zero false) (S754_finite false 8655792383016527 (-53)); mkNormalVertex (S754_finite false 4788326203012113 (-53)) (S754_zero false) (S754_finite false 7628989682374563 (-53)); mkNormalVertex (S754_finite false 4788326203012113 (-53)) (S754_zero false) (S754_finite false 7628989682374563 (-53))] [lit "all"] [1%N] [Face (VN 0 0) (VN 1 1) (VN 2 2); Face (VN 0 0) (VN 2 2) (VN 3 3); Face (VN 3 3) (VN 2 2) (VN 4 4); Face (VN 3 3) (VN 4 4) (VN 5 5)] [mkShapeEntry 0 [0] 0; mkShapeEntry 1 [0] 0; mkShapeEntry 2 [0] 0; mkShapeEntry 3 [0] 0] [mkGeometry (Some (lit "material1")) [0; 1; 2; 3]]; mkObject (lit "Object002") [mkVertex (S754_zero false) (S754_finite false 4503599627370496 (-51)) (S754_zero false) (S754_finite false 4503599627370496 (-52)); mkVertex (S754_zero false) (S754_zero false) (S754_zero false) (S754_finite false 4503599627370496 (-52)); mkVertex (S754_finite false 4503599627370496 (-51)) (S754_zero false) (S754_zero false) (S754_finite false 4503599627370496 (-52)); mkVertex (S754_finite false 4503599627370496 (-51)) (S754_finite false 4503599627370496 (-51)) (S754_zero false) (S754_finite false 4503599627370496 (-52)); mkVertex (S754_finite false 4503599627370496 (-50)) (S754_zero false) (S754_finite true 5653359605038929 (-52)) (S754_finite false 4503599627370496 (-52)); mkVertex (S754_finite false 4503599627370496 (-50)) (S754_finite false 4503599627370496 (-51)) (S754_finite true 5653359605038929 (-52)) (S754_finite false 4503599627370496 (-52))] [] [mkNormalVertex (S754_zero false) (S754_zero false) (S754_finite false 4503599627370496 (-52)); mkNormalVertex (S754_zero false) (S754_zero false) (S754_finite false 4503599627370496 (-52)); mkNormalVertex (S754_finite false 4982728584527188 (-54)) (S754_zero false) (S754_finite false 8655792383016527 (-53)); mkNormalVertex (S754_finite false 4982728584527188 (-54)) (S754_zero false) (S754_finite false 8655792383016527 (-53)); mkNormalVertex (S754_finite false 4788326203012113 (-53)) (S754_zero false) (S754_finite false 7628989682374563 (-53)); mkNormalVertex (S754_finite false 4788326203012113 (-53)) (S754_zero false) (S754_finite false 7628989682374563 (-53))] [lit "all"] [1%N] [Face (VN 0 0) (VN 1 1) (VN 2 2); Face (VN 0 0) (VN 2 2) (VN 3 3); Face (VN 3 3) (VN 2 2) (VN 4 4); Face (VN 3 3) (VN 4 4) (VN 5 5)] [mkShapeEntry 0 [0] 0; mkShapeEntry 1 [0] 0; mkShapeEntry 2 [0] 0; mkShapeEntry 3 [0] 0] [mkGeometry (Some (lit "material2")) [0; 1; 2; 3]]; mkObject (lit "Object003") [mkVertex (S754_zero false) (S754_finite false 4503599627370496 (-51)) (S754_zero false) (S754_finite false 4503599627370496 (-52)); mkVertex (S754_zero false) (S754_zero false) (S754_zero false) (S754_finite false 4503599627370496 (-52)); mkVertex (S754_finite false 4503599627370496 (-51)) (S754_zero false) (S754_zero false) (S754_finite false 4503599627370496 (-52)); mkVertex (S754_finite false 4503599627370496 (-51)) (S754_finite false 4503599627370496 (-51)) (S754_zero false) (S754_finite false 4503599627370496 (-52)); mkVertex (S754_finite false 4503599627370496 (-50)) (S754_zero false) (S754_finite true 5653359605038929 (-52)) (S754_finite false 4503599627370496 (-52)); mkVertex (S754_finite false 4503599627370496 (-50)) (S754_finite false 4503599627370496 (-51)) (S754_finite true 5653359605038929 (-52)) (S754_finite false 4503599627370496 (-52))] [] [mkNormalVertex (S754_zero false) (S754_zero false) (S754_finite false 4503599627370496 (-52)); mkNormalVertex (S754_zero false) (S754_zero false) (S754_finite false 4503599627370496 (-52)); mkNormalVertex (S754_finite false 4982728584527188 (-54)) (S754_zero false) (S754_finite false 8655792383016527 (-53)); mkNormalVertex (S754_finite false 4982728584527188 (-54)) (S754_zero false) (S754_finite false 8655792383016527 (-53)); mkNormalVertex (S754_finite false 4788326203012113 (-53)) (S754_zero false) (S754_finite false 7628989682374563 (-53)); mkNormalVertex (S754_finite false 4788326203012113 (-53)) (S754_zero false) (S754_finite false 7628989682374563 (-53))] [lit "all"] [1%N] [Face (VN 0 0) (VN 1 1) (VN 2 2); Face (VN 0 0) (VN 2 2) (VN 3 3); Face (VN 3 3) (VN 2 2) (VN 4 4); Face (VN 3 3) (VN 4 4) (VN 5 5)] [mkShapeEntry 0 [0] 0; mkShapeEntry 1 [0] 0; mkShapeEntry 2 [0] 0; mkShapeEntry 3 [0] 0] [mkGeometry (Some (lit "material3")) [0; 1; 2; 3]]]).
Proof. vm_compute. reflexivity. Qed.

(** tests/test_obj_parser3.rs on assets/cube_vt.obj *)
Example cube_vt :
  ObjModel.parse true (lit "# cube_vt.obj
#

g cube

v  0.0  0.0  0.0
v  0.0  0.0  1.0
v  0.0  1.0  0.0
v  0.0  1.0  1.0
v  1.0  0.0  0.0
v  1.0  0.0  1.0
v  1.0  1.0  0.0
v  1.0  1.0  1.0
# 8 vertices

vt  0.0   0.66666666
vt  0.25  0.66666666
vt  0.0   0.33333333
vt  0.25  1.0
vt  0.5   1.0
vt  0.5   0.66666666
vt  0.25  0.33333333
vt  0.50  0.33333333
vt  0.75  0.66666666
vt  0.75  0.33333333
vt  1.0   0.66666666
vt  1.0   0.33333333
vt  0.5   0.0
vt  0.25  0.0
# 14 texture vertices

vn  0.0  0.0  1.0
vn  0.0  0.0 -1.0
vn  0.0  1.0  0.0
vn  0.0 -1.0  0.0
vn  1.0  0.0  0.0
vn -1.0  0.0  0.0
# 6 normal vertices

f  1/2/2   7/3/2   5/1/2
f  1/2/2   3/7/2   7/3/2
f  1/5/6   4/2/6   3/4/6
f  1/5/6   2/6/6   4/2/6
f  3/6/3   8/7/3   7/2/3
f  3/6/3   4/8/3   8/7/3
f  5/8/5   7/14/5  8/7/5
f  5/8/5   8/13/5  6/14/5
f  1/9/4   5/8/4   6/6/4
f  1/9/4   6/10/4  2/8/4
f  2/11/1  6/10/1  8/9/1
f  2/11/1  8/12/1  4/10/1
# 12 face elements
") =
  Ok (mkObjectSet [] [mkObject (lit "") [mkVertex (S754_zero false) (S754_zero false) (S754_zero false) (S754_finite false 4503599627370496 (-52)); mkVertex (S754_zero false) (S754_zero false) (S754_finite false 4503599627370496 (-52)) (S754_finite false 4503599627370496 (-52)); mkVertex (S754_zero false) (S754_finite false 4503599627370496 (-52)) (S754_zero false) (S754_finite false 4503599627370496 (-52)); mkVertex (S754_zero false) (S754_finite false 4503599627370496 (-52)) (S754_finite false 4503599627370496 (-52)) (S754_finite false 4503599627370496 (-52)); mkVertex (S754_finite false 4503599627370496 (-52)) (S754_zero false) (S754_zero false) (S754_finite false 4503599627370496 (-52)); mkVertex (S754_finite false 4503599627370496 (-52)) (S754_zero false) (S754_finite false 4503599627370496 (-52)) (S754_finite false 4503599627370496 (-52)); mkVertex (S754_finite false 4503599627370496 (-52)) (S754_finite false 4503599627370496 (-52)) (S754_zero false) (S754_finite false 4503599627370496 (-52)); mkVertex (S754_finite false 4503599627370496 (-52)) (S754_finite false 4503599627370496 (-52)) (S754_finite false 4503599627370496 (-52)) (S754_finite false 4503599627370496 (-52))] [mkTextureVertex (S754_zero false) (S754_finite false 6004799443112666 (-53)) (S754_zero false); mkTextureVertex (S754_finite false 4503599627370496 (-54)) (S754_finite false 6004799443112666 (-53)) (S754_zero false); mkTextureVertex (S754_zero false) (S754_finite false 6004799443112666 (-54)) (S754_zero false); mkTextureVertex (S754_finite false 4503599627370496 (-54)) (S754_finite false 4503599627370496 (-52)) (S754_zero false); mkTextureVertex (S754_finite false 4503599627370496 (-53)) (S754_finite false 4503599627370496 (-52)) (S754_zero false); mkTextureVertex (S754_finite false 4503599627370496 (-53)) (S754_finite false 6004799443112666 (-53)) (S754_zero false); mkTextureVertex (S754_finite false 4503599627370496 (-54)) (S754_finite false 6004799443112666 (-54)) (S754_zero false); mkTextureVertex (S754_finite false 4503599627370496 (-53)) (S754_finite false 6004799443112666 (-54)) (S754_zero false); mkTextureVertex (S754_finite false 6755399441055744 (-53)) (S754_finite false 6004799443112666 (-53)) (S754_zero false); mkTextureVertex (S754_finite false 6755399441055744 (-53)) (S754_finite false 6004799443112666 (-54)) (S754_zero false); mkTextureVertex (S754_finite false 4503599627370496 (-52)) (S754_finite false 6004799443112666 (-53)) (S754_zero false); mkTextureVertex (S754_finite false 4503599627370496 (-52)) (S754_finite false 6004799443112666 (-54)) (S754_zero false); mkTextureVertex (S754_finite false 4503599627370496 (-53)) (S754_zero false) (S754_zero false); mkTextureVertex (S754_finite false 4503599627370496 (-54)) (S754_zero false) (S754_zero false)] [mkNormalVertex (S754_zero false) (S754_zero false) (S754_finite false 4503599627370496 (-52)); mkNormalVertex (S754_zero false) (S754_zero false) (S754_finite true 4503599627370496 (-52)); mkNormalVertex (S754_zero false) (S754_finite false 4503599627370496 (-52)) (S754_zero false); mkNormalVertex (S754_zero false) (S754_finite true 4503599627370496 (-52)) (S754_zero false); mkNormalVertex (S754_finite false 4503599627370496 (-52)) (S754_zero false) (S754_zero false); mkNormalVertex (S754_finite true 4503599627370496 (-52)) (S754_zero false) (S754_zero false)] [lit "cube"] [0%N] [Face (VTN 0 1 1) (VTN 6 2 1) (VTN 4 0 1); Face (VTN 0 1 1) (VTN 2 6 1) (VTN 6 2 1); Face (VTN 0 4 5) (VTN 3 1 5) (VTN 2 3 5); Face (VTN 0 4 5) (VTN 1 5 5) (VTN 3 1 5); Face (VTN 2 5 2) (VTN 7 6 2) (VTN 6 1 2); Face (VTN 2 5 2) (VTN 3 7 2) (VTN 7 6 2); Face (VTN 4 7 4) (VTN 6 13 4) (VTN 7 6 4); Face (VTN 4 7 4) (VTN 7 12 4) (VTN 5 13 4); Face (VTN 0 8 3) (VTN 4 7 3) (VTN 5 5 3); Face (VTN 0 8 3) (VTN 5 9 3) (VTN 1 7 3); Face (VTN 1 10 0) (VTN 5 9 0) (VTN 7 8 0); Face (VTN 1 10 0) (VTN 7 11 0) (VTN 3 9 0)] [mkShapeEntry 0 [0] 0; mkShapeEntry 1 [0] 0; mkShapeEntry 2 [0] 0; mkShapeEntry 3 [0] 0; mkShapeEntry 4 [0] 0; mkShapeEntry 5 [0] 0; mkShapeEntry 6 [0] 0; mkShapeEntry 7 [0] 0; mkShapeEntry 8 [0] 0; mkShapeEntry 9 [0] 0; mkShapeEntry 10 [0] 0; mkShapeEntry 11 [0] 0] [mkGeometry None [0; 1; 2; 3; 4; 5; 6; 7; 8; 9; 10; 11]]]).
Proof. vm_compute. reflexivity. Qed.

(** src/obj.rs:9-107, the example of the documentation of [parse].  (Of two [#] at
    the start of a line rustdoc leaves out one.)  There only the libraries are
    compared; all the rest of what is said to be expected is right, too. *)
Example doc_parse :
  ObjModel.parse true (lit "
    mtllib material_library.mtl   \
    o Object001                   \
    v 0.000000 2.000000 0.000000  \
    v 0.000000 0.000000 0.000000  \
    v 2.000000 0.000000 0.000000  \
    v 2.000000 2.000000 0.000000  \
    v 4.000000 0.000000 -1.255298 \
    v 4.000000 2.000000 -1.255298 \
    vn 0.000000 0.000000 1.000000 \
    vn 0.000000 0.000000 1.000000 \
    vn 0.276597 0.000000 0.960986 \
    vn 0.276597 0.000000 0.960986 \
    vn 0.531611 0.000000 0.846988 \
    vn 0.531611 0.000000 0.846988 \
    # 6 vertices                 \
    # 6 normals                  \
                                  \
    usemtl material               \
    g all                         \
    s 1                           \
    f 1//1 2//2 3//3 4//4         \
    f 4//4 3//3 5//5 6//6         \
    # 2 elements                 \
                                  \
    ### End Object001            \
                                  \
") =
  Ok (mkObjectSet [lit "material_library.mtl"]
    [mkObject (lit "Object001")
      [mkVertex (S754_zero false) (S754_finite false 4503599627370496 (-51)) (S754_zero false) (S754_finite false 4503599627370496 (-52)); mkVertex (S754_zero false) (S754_zero false) (S754_zero false) (S754_finite false 4503599627370496 (-52)); mkVertex (S754_finite false 4503599627370496 (-51)) (S754_zero false) (S754_zero false) (S754_finite false 4503599627370496 (-52)); mkVertex (S754_finite false 4503599627370496 (-51)) (S754_finite false 4503599627370496 (-51)) (S754_zero false) (S754_finite false 4503599627370496 (-52)); mkVertex (S754_finite false 4503599627370496 (-50)) (S754_zero false) (S754_finite true 5653359605038929 (-52)) (S754_finite false 4503599627370496 (-52)); mkVertex (S754_finite false 4503599627370496 (-50)) (S754_finite false 4503599627370496 (-51)) (S754_finite true 5653359605038929 (-52)) (S754_finite false 4503599627370496 (-52))]
      []
      [mkNormalVertex (S754_zero false) (S754_zero false) (S754_finite false 4503599627370496 (-52)); mkNormalVertex (S754_zero false) (S754_zero false) (S754_finite false 4503599627370496 (-52)); mkNormalVertex (S754_finite false 4982728584527188 (-54)) (S754_zero false) (S754_finite false 8655792383016527 (-53)); mkNormalVertex (S754_finite false 4982728584527188 (-54)) (S754_zero false) (S754_finite false 8655792383016527 (-53)); mkNormalVertex (S754_finite false 4788326203012113 (-53)) (S754_zero false) (S754_finite false 7628989682374563 (-53)); mkNormalVertex (S754_finite false 4788326203012113 (-53)) (S754_zero false) (S754_finite false 7628989682374563 (-53))]
      [lit "all"] [1%N]
      [Face (VN 0 0) (VN 1 1) (VN 2 2); Face (VN 0 0) (VN 2 2) (VN 3 3); Face (VN 3 3) (VN 2 2) (VN 4 4); Face (VN 3 3) (VN 4 4) (VN 5 5)]
      [mkShapeEntry 0 [0] 0; mkShapeEntry 1 [0] 0; mkShapeEntry 2 [0] 0; mkShapeEntry 3 [0] 0]
      [mkGeometry (Some (lit "material")) [0; 1; 2; 3]]]).
Proof. vm_compute. reflexivity. Qed.

(** benches/benchmark_cube.rs on assets/cube.obj: [obj::parse] is unwrapped. *)
Example cube :
  match ObjModel.parse true (lit "# cube.obj
#
 
g cube
 
v  0.0  0.0  0.0
v  0.0  0.0  1.0
v  0.0  1.0  0.0
v  0.0  1.0  1.0
v  1.0  0.0  0.0
v  1.0  0.0  1.0
v  1.0  1.0  0.0
v  1.0  1.0  1.0

vn  0.0  0.0  1.0
vn  0.0  0.0 -1.0
vn  0.0  1.0  0.0
vn  0.0 -1.0  0.0
vn  1.0  0.0  0.0
vn -1.0  0.0  0.0
 
f  1//2  7//2  5//2
f  1//2  3//2  7//2 
f  1//6  4//6  3//6 
f  1//6  2//6  4//6 
f  3//3  8//3  7//3 
f  3//3  4//3  8//3 
f  5//5  7//5  8//5 
f  5//5  8//5  6//5 
f  1//4  5//4  6//4 
f  1//4  6//4  2//4 
f  2//1  6//1  8//1 
f  2//1  8//1  4//1 
") with
  | Ok set => map (fun ob => (length (vertex_set ob), length (normal_vertex_set ob), length (element_set ob), group_set ob)) (objects set)
  | _ => []
  end = [(8, 6, 12, [lit "cube"])].
Proof. vm_compute. reflexivity. Qed.

(** src/obj.rs:198-227, the example of the documentation of [has_same_type_as] *)
Example doc_has_same_type_as :
  has_same_type_as (V 0) (V 1) = true /\
  has_same_type_as (VT 2 3) (VT 4 5) = true /\
  has_same_type_as (VN 6 7) (VN 8 9) = true /\
  has_same_type_as (VTN 10 11 12) (VTN 13 14 15) = true /\
  has_same_type_as (V 0) (VT 2 3) = false /\
  has_same_type_as (V 0) (VN 6 7) = false /\
  has_same_type_as (V 0) (VTN 10 11 12) = false /\
  has_same_type_as (VT 2 3) (VN 6 7) = false /\
  has_same_type_as (VT 2 3) (VTN 10 11 12) = false /\
  has_same_type_as (VN 6 7) (VTN 10 11 12) = false.
Proof. repeat split. Qed.

(** src/obj.rs:416-493, the example of the documentation of [get_vtn_triple] *)
Example doc_get_vtn_triple :
  let zero := S754_zero false in
  let one := S754_finite false 4503599627370496 (-52) in
  let plus := S754_finite false 4503599627370496 (-53) in
  let minus := S754_finite true 4503599627370496 (-53) in
  match ObjModel.parse true (lit "
    o quad                    \
    v -0.5 -0.5 0.0           \
    v  0.5 -0.5 0.0           \
    v  0.5  0.5 0.0           \
    v -0.5  0.5 0.0           \
    # 4 vertices             \
                              \
    vt 0.0 0.0 0.0            \
    vt 1.0 0.0 0.0            \
    vt 1.0 1.0 0.0            \
    vt 0.0 1.0 0.0            \
    # 4 texture vertices     \
                              \
    vn 0.0 0.0 1.0            \
    vn 0.0 0.0 1.0            \
    vn 0.0 0.0 1.0            \
    vn 0.0 0.0 1.0            \
    # 4 normal vertices      \
                              \
    f 1/1/1 2/2/2 3/3/3 4/4/4 \
    # 2 faces                \
    # end quad               \
") with
  | Ok (mkObjectSet _ (ob :: _)) => map (get_vtn_triple ob) [VTN 0 0 0; VTN 1 1 1; VTN 2 2 2; VTN 3 3 3; VTN 4 4 4]
  | _ => []
  end =
  [Some (TripleVTN (mkVertex minus minus zero one) (mkTextureVertex zero zero zero) (mkNormalVertex zero zero one));
   Some (TripleVTN (mkVertex plus minus zero one) (mkTextureVertex one zero zero) (mkNormalVertex zero zero one));
   Some (TripleVTN (mkVertex plus plus zero one) (mkTextureVertex one one zero) (mkNormalVertex zero zero one));
   Some (TripleVTN (mkVertex minus plus zero one) (mkTextureVertex zero one zero) (mkNormalVertex zero zero one));
   None].
Proof. vm_compute. reflexivity. Qed.

(** src/obj.rs:1553-1689, the example of the documentation of [parse_objset] *)
Example doc_parse_objset :
  let one := S754_finite false 4503599627370496 (-52) in
  let two := S754_finite false 4503599627370496 (-51) in
  let four := S754_finite false 4503599627370496 (-50) in
  let low := S754_finite true 5653359605038929 (-52) in
  let vertices := [mkVertex (S754_zero false) two (S754_zero false) one; mkVertex (S754_zero false) (S754_zero false) (S754_zero false) one; mkVertex two (S754_zero false) (S754_zero false) one; mkVertex two two (S754_zero false) one; mkVertex four (S754_zero false) low one; mkVertex four two low one] in
  ObjModel.parse true (lit "
    mtllib material_library.mtl    \
    o object1                      \
    v 0.000000  2.000000  0.000000 \
    v 0.000000  0.000000  0.000000 \
    v 2.000000  0.000000  0.000000 \
    v 2.000000  2.000000  0.000000 \
    v 4.000000  0.000000 -1.255298 \
    v 4.000000  2.000000 -1.255298 \
    # 6 vertices                  \
                                   \
    g all                          \
    s 1                            \
    usemtl material1               \
    f 1 2 3 4                      \
    f 4 3 5 6                      \
    # 2 elements                  \
                                   \
    o object2                      \
    v 0.000000  2.000000  0.000000 \
    v 0.000000  0.000000  0.000000 \
    v 2.000000  0.000000  0.000000 \
    v 2.000000  2.000000  0.000000 \
    v 4.000000  0.000000 -1.255298 \
    v 4.000000  2.000000 -1.255298 \
    # 6 vertices                  \
                                   \
    g all                          \
    s 1                            \
    usemtl material2               \
    f 7 8 9 10                     \
    f 10 9 11 12                   \
    # 2 elements                  \
                                   \
") =
  Ok (mkObjectSet [lit "material_library.mtl"]
    [mkObject (lit "object1")
        vertices [] [] [lit "all"] [1%N]
        [Face (V 0) (V 1) (V 2); Face (V 0) (V 2) (V 3); Face (V 3) (V 2) (V 4); Face (V 3) (V 4) (V 5)]
        [mkShapeEntry 0 [0] 0; mkShapeEntry 1 [0] 0; mkShapeEntry 2 [0] 0; mkShapeEntry 3 [0] 0]
        [mkGeometry (Some (lit "material1")) [0; 1; 2; 3]];
     mkObject (lit "object2")
        vertices [] [] [lit "all"] [1%N]
        [Face (V 0) (V 1) (V 2); Face (V 0) (V 2) (V 3); Face (V 3) (V 2) (V 4); Face (V 3) (V 4) (V 5)]
        [mkShapeEntry 0 [0] 0; mkShapeEntry 1 [0] 0; mkShapeEntry 2 [0] 0; mkShapeEntry 3 [0] 0]
        [mkGeometry (Some (lit "material2")) [0; 1; 2; 3]]]).
Proof. vm_compute. reflexivity. Qed.
