(** C54-C57 and C59: texts with the same meaning, and texts that differ in data
    only; C58: blank lines at the top and at the end.

    [overflows_file] can hold of a text that parses in a release build only if it
    has an index next to [-2^63] behind the references of an element (C04). *)
From Verif Require Import ObjModel ObjErrorSpec ObjView RewriteSpec LexerProofs ObjTop ObjUnique ObjRewrite TopLines ExampleText Demo.
From Verif Require MtlModel MtlTopLines.
Local Open Scope list_scope.

Ltac says_it :=
  lazymatch goal with
  | |- says ?t ?f => exists (lex t); split; [apply lex_tokenizes|];
      let ts := eval vm_compute in (lex t) in change (lex t) with ts; read_file
  end.

(** * C54 *)

(** The same object in two files, with numbers that count from the first vertex
    of each file, is the same object. *)
Theorem C54_objects : forall dbg dbg' input input' set set' f f' i j n ss ss', fits input -> fits input' ->
  parse dbg input = Ok set -> parse dbg' input' = Ok set' -> says input f -> says input' f' ->
  nth_error (file_objects f) i = Some (n, ss) -> nth_error (file_objects f') j = Some (n, ss') ->
  Forall2 (moved (base_of f i) (base_of f' j)) ss ss' ->
  nth_error (objects set) i = nth_error (objects set') j.
Proof. exact moved_objects. Qed.
Print Assumptions C54_objects.

Definition vert (x y z : string) : statement := SVertex (mkVertex (num x) (num y) (num z) (num "1")).

Definition C54_here : bytes := text "o a|v 0 0 0|v 1 0 0|v 0 1 0|f 1 2 3|".
Definition C54_there : bytes := text "o b|v 7 7 7|p 1|o a|v 0 0 0|v 1 0 0|v 0 1 0|f 2 3 4|".
Definition C54_body (k : nat) : list statement :=
  [ vert "0" "0" "0"; vert "1" "0" "0"; vert "0" "1" "0";
    SFace [mkRef (k + 1) None None; mkRef (k + 2) None None; mkRef (k + 3) None None] ].

Example C54_example :
  let f := mkObjFile [] [(lit "a", C54_body 0)] in
  let f' := mkObjFile [] [(lit "b", [vert "7" "7" "7"; SPoint [1]]); (lit "a", C54_body 1)] in
  says C54_here f /\ says C54_there f' /\
  nth_error (file_objects f) 0 = Some (lit "a", C54_body 0) /\ nth_error (file_objects f') 1 = Some (lit "a", C54_body 1) /\
  Forall2 (moved (base_of f 0) (base_of f' 1)) (C54_body 0) (C54_body 1) /\
  (exists set set', parse true C54_here = Ok set /\ parse true C54_there = Ok set' /\
     nth_error (objects set) 0 = nth_error (objects set') 1 /\ nth_error (objects set) 0 <> None).
Proof.
  cbv zeta. split; [|split; [|split; [|split; [|split]]]].
  - says_it.
  - says_it.
  - reflexivity.
  - reflexivity.
  - repeat (apply Forall2_cons; [first [apply moved_other; reflexivity|apply moved_face]|]); [|constructor].
    repeat (apply Forall2_cons; [repeat split; reflexivity|]). constructor.
  - eexists _, _. split; [vm_compute; reflexivity|]. split; [vm_compute; reflexivity|]. split; [reflexivity|discriminate].
Qed.

(** * C55 *)

(** Independent statements next to each other may change places. *)
Theorem C55_swapped : forall dbg input set input' libs os n a s s' b os', fits input -> fits input' -> independent s s' ->
  says input (mkObjFile libs (os ++ (n, a ++ s :: s' :: b) :: os')) ->
  says input' (mkObjFile libs (os ++ (n, a ++ s' :: s :: b) :: os')) ->
  parse dbg input = Ok set ->
  forall dbg', parse dbg' input' = Ok set \/ (dbg' = true /\ exists ts, tokenizes input' ts /\ overflows_file ts).
Proof. exact swapped. Qed.
Print Assumptions C55_swapped.

Example C55_example :
  independent (vert "1" "0" "0") (SPoint [1]) /\ independent (SSmooth 3) (SGroup [lit "g"]) /\
  ~ independent (SGroup [lit "g"]) (SPoint [1]) /\ ~ independent (SUse (lit "m")) (SPoint [1]) /\
  says (text "v 0 0 0|p 1|v 1 0 0|p 2|") (mkObjFile [] [([], [vert "0" "0" "0"; SPoint [1]; vert "1" "0" "0"; SPoint [2]])]) /\
  says (text "v 0 0 0|v 1 0 0|p 1|p 2|") (mkObjFile [] [([], [vert "0" "0" "0"; vert "1" "0" "0"; SPoint [1]; SPoint [2]])]) /\
  (exists set, parse true (text "v 0 0 0|p 1|v 1 0 0|p 2|") = Ok set /\ parse true (text "v 0 0 0|v 1 0 0|p 1|p 2|") = Ok set).
Proof.
  repeat match goal with |- _ /\ _ => split end; try (vm_compute; repeat split; discriminate).
  - intros (_ & H & H'). discriminate (H' eq_refl).
  - intros (_ & H & H'). discriminate (H' eq_refl).
  - says_it.
  - says_it.
  - eexists. split; vm_compute; reflexivity.
Qed.

(** The other statements may not: a group, a smoothing group or a material
    applies to the elements after it. *)
Theorem C55_any_refuted : exists input input' n a s s' b set set',
  says input (mkObjFile [] [(n, a ++ s :: s' :: b)]) /\ says input' (mkObjFile [] [(n, a ++ s' :: s :: b)]) /\
  kind_of s <> kind_of s' /\
  parse false input = Ok set /\ parse false input' = Ok set' /\ set <> set'.
Proof.
  exists (text "v 0 0 0|s 1|p 1|"), (text "v 0 0 0|p 1|s 1|"), [], [vert "0" "0" "0"], (SSmooth 1), (SPoint [1]), [].
  eexists _, _. split; [cbn [app]; says_it|]. split; [cbn [app]; says_it|]. split; [discriminate|].
  split; [vm_compute; reflexivity|]. split; [vm_compute; reflexivity|]. discriminate.
Qed.
Print Assumptions C55_any_refuted.

(** * C56 *)

Theorem C56_split : forall dbg input set input' libs os n a s es b os', fits input -> fits input' -> same_elements s es ->
  says input (mkObjFile libs (os ++ (n, a ++ s :: b) :: os')) ->
  says input' (mkObjFile libs (os ++ (n, a ++ es ++ b) :: os')) ->
  parse dbg input = Ok set ->
  forall dbg', parse dbg' input' = Ok set \/ (dbg' = true /\ exists ts, tokenizes input' ts /\ overflows_file ts).
Proof. exact split_up. Qed.
Print Assumptions C56_split.

Theorem C56_together : forall dbg input set input' libs os n a s es b os', fits input -> fits input' -> same_elements s es ->
  says input (mkObjFile libs (os ++ (n, a ++ es ++ b) :: os')) ->
  says input' (mkObjFile libs (os ++ (n, a ++ s :: b) :: os')) ->
  parse dbg input = Ok set ->
  forall dbg', parse dbg' input' = Ok set \/ (dbg' = true /\ exists ts, tokenizes input' ts /\ overflows_file ts).
Proof. exact put_together. Qed.
Print Assumptions C56_together.

(** The ways to do so: points one by one, a polyline as its segments, a polygon
    as its fan of triangles. *)
Theorem C56_points : forall ks, ks <> [] -> same_elements (SPoint ks) (map (fun k => SPoint [k]) ks).
Proof. exact split_points. Qed.
Print Assumptions C56_points.

Theorem C56_line : forall rs, 2 <= length rs ->
  same_elements (SLine rs) (map (fun i => SLine [nth_ref rs i; nth_ref rs (i + 1)]) (seq 0 (length rs - 1))).
Proof. exact split_line. Qed.
Print Assumptions C56_line.

Theorem C56_face : forall rs, 3 <= length rs ->
  same_elements (SFace rs)
    (map (fun i => SFace [nth_ref rs 0; nth_ref rs (i + 1); nth_ref rs (i + 2)]) (seq 0 (length rs - 2))).
Proof. exact split_face. Qed.
Print Assumptions C56_face.

Example C56_example :
  let one := text "v 0 0 0|v 1 0 0|v 1 1 0|v 0 1 0|g a|f 1 2 3 4|" in
  let two := text "v 0 0 0|v 1 0 0|v 1 1 0|v 0 1 0|g a|f 1 2 3|f 1 3 4|" in
  let square := [vert "0" "0" "0"; vert "1" "0" "0"; vert "1" "1" "0"; vert "0" "1" "0"; SGroup [lit "a"]] in
  let r k := mkRef k None None in
  says one (mkObjFile [] ([] ++ ([], square ++ SFace [r 1; r 2; r 3; r 4] :: []) :: [])) /\
  says two (mkObjFile [] ([] ++ ([], square ++ [SFace [r 1; r 2; r 3]; SFace [r 1; r 3; r 4]] ++ []) :: [])) /\
  same_elements (SFace [r 1; r 2; r 3; r 4]) [SFace [r 1; r 2; r 3]; SFace [r 1; r 3; r 4]] /\
  (exists set, parse true one = Ok set /\ parse true two = Ok set).
Proof.
  cbv zeta. cbn [app]. split; [|split; [|split]].
  - says_it.
  - says_it.
  - apply (C56_face [mkRef 1 None None; mkRef 2 None None; mkRef 3 None None; mkRef 4 None None]). cbn. auto.
  - eexists. split; vm_compute; reflexivity.
Qed.

(** * C57 *)

(** A material without elements is as if it were not there. *)
Theorem C57_unused : forall dbg input set input' libs os n a m mid m' b os', fits input -> fits input' ->
  Forall (fun s => is_element s = false /\ forall k, s <> SUse k) mid ->
  says input (mkObjFile libs (os ++ (n, a ++ SUse m :: mid ++ SUse m' :: b) :: os')) ->
  says input' (mkObjFile libs (os ++ (n, a ++ mid ++ SUse m' :: b) :: os')) ->
  parse dbg input = Ok set ->
  forall dbg', parse dbg' input' = Ok set \/ (dbg' = true /\ exists ts, tokenizes input' ts /\ overflows_file ts).
Proof. exact unused_material. Qed.
Print Assumptions C57_unused.

Example C57_example :
  let with_it := text "v 0 0 0|p 1|usemtl x|s 1|usemtl y|p 1|" in
  let without := text "v 0 0 0|p 1|s 1|usemtl y|p 1|" in
  let a := [vert "0" "0" "0"; SPoint [1]] in
  says with_it (mkObjFile [] ([] ++ ([], a ++ SUse (lit "x") :: [SSmooth 1] ++ SUse (lit "y") :: [SPoint [1]]) :: [])) /\
  says without (mkObjFile [] ([] ++ ([], a ++ [SSmooth 1] ++ SUse (lit "y") :: [SPoint [1]]) :: [])) /\
  (exists set, parse true with_it = Ok set /\ parse true without = Ok set).
Proof.
  cbv zeta. cbn [app]. split; [says_it|]. split; [says_it|]. eexists. split; vm_compute; reflexivity.
Qed.

(** The last one of an object is kept although it has no elements. *)
Example C57_last :
  exists set set', parse true (text "v 0 0 0|p 1|usemtl x|") = Ok set /\ parse true (text "v 0 0 0|p 1|") = Ok set' /\
  map (fun ob => map material_name (geometry_set ob)) (objects set) = [[None; Some (lit "x")]] /\
  map (fun ob => map material_name (geometry_set ob)) (objects set') = [[None]].
Proof. eexists _, _. split; [vm_compute; reflexivity|]. split; [vm_compute; reflexivity|]. split; reflexivity. Qed.

(** * C58 *)

Theorem C58_obj_top : forall dbg p input, fits (p ++ input) -> blank_lines p ->
  parse dbg (p ++ input) = later (count_occ ascii_dec p LF) (parse dbg input).
Proof. exact obj_top. Qed.
Print Assumptions C58_obj_top.

Theorem C58_mtl_top : forall p input, blank_lines p ->
  MtlModel.parse (p ++ input) = later (count_occ ascii_dec p LF) (MtlModel.parse input).
Proof. exact MtlTopLines.mtl_top. Qed.
Print Assumptions C58_mtl_top.

Theorem C58_obj_final : forall dbg input set, fits (input ++ [LF]) -> parse dbg input = Ok set ->
  parse dbg (input ++ [LF]) = Ok set.
Proof. exact obj_final. Qed.
Print Assumptions C58_obj_final.

Theorem C58_mtl_final : forall input set, MtlModel.parse input = Ok set -> MtlModel.parse (input ++ [LF]) = Ok set.
Proof. exact MtlTopLines.mtl_final. Qed.
Print Assumptions C58_mtl_final.

(** A final newline can change an error, and turn one into a result. *)
Theorem C58_final_error_refuted : exists input e set, MtlModel.parse input = Err e /\ MtlModel.parse (input ++ [LF]) = Ok set.
Proof. exists (lit "newmtl"). eexists _, _. split; vm_compute; reflexivity. Qed.
Print Assumptions C58_final_error_refuted.

Example C58_example :
  blank_lines (text "# made by hand|  |") /\ count_occ ascii_dec (text "# made by hand|  |") LF = 2 /\
  parse true (text "v 0 0 x|") = Err (mkParseError 1 ExpectedFloat (msg_float (lit "x"))) /\
  parse true (text "# made by hand|  |v 0 0 x|") = Err (mkParseError 3 ExpectedFloat (msg_float (lit "x"))) /\
  parse true (text "# made by hand|  |v 0 0 0|") = Panic PanicIndex /\
  (exists set, parse true (text "v 0 0 0|p 1") = Ok set /\ parse true (text "v 0 0 0|p 1|") = Ok set /\
     parse true (text "# made by hand|  |v 0 0 0|p 1") = Ok set).
Proof.
  split; [|split; [|split; [|split; [|split]]]]; try (vm_compute; reflexivity).
  - split; [right; exists (text "# made by hand|  "); reflexivity|]. exists [nl; nl]. split; [apply tokenizes_iff; vm_compute; reflexivity|].
    repeat constructor.
  - eexists. split; [|split]; vm_compute; reflexivity.
Qed.

(** * C59 *)

Theorem C59_data : forall T, keeps_defaults T ->
  forall dbg input set f input', fits input -> fits input' -> says input f -> says input' (map_file T f) ->
  parse dbg input = Ok set ->
  forall dbg', parse dbg' input' = Ok (map_set T set) \/ (dbg' = true /\ exists ts, tokenizes input' ts /\ overflows_file ts).
Proof. exact mapped. Qed.
Print Assumptions C59_data.

Definition C59_T : transform :=
  mkTransform (fun v => mkVertex (vz v) (vx v) (vy v) (vw v)) (fun t => t) (fun n => n)
    (fun g => if list_eq_dec ascii_dec g (lit "a") then lit "b" else g) (fun n => if N.eqb n 0 then 0%N else (n + 1)%N)
    (fun m => m ++ lit "2") (fun n => lit "x" ++ n) (fun l => l).

Example C59_example :
  let input := text "mtllib l|o n|v 1 2 3|p 1|g a|s 1|usemtl m|p 1|" in
  let input' := text "mtllib l|o xn|v 3 1 2|p 1|g b|s 2|usemtl m2|p 1|" in
  let f := mkObjFile [lit "l"] [(lit "n", [vert "1" "2" "3"; SPoint [1]; SGroup [lit "a"]; SSmooth 1; SUse (lit "m"); SPoint [1]])] in
  keeps_defaults C59_T /\ says input f /\ says input' (map_file C59_T f) /\
  (exists set, parse true input = Ok set /\ parse true input' = Ok (map_set C59_T set)).
Proof.
  cbv zeta. split; [split; reflexivity|]. split; [|split].
  - change [lit "l"] with ([lit "l"] ++ []). says_it.
  - lazymatch goal with |- says _ ?f => replace f with
      (mkObjFile ([lit "l"] ++ []) [(lit "xn", [vert "3" "1" "2"; SPoint [1]; SGroup [lit "b"]; SSmooth 2; SUse (lit "m2"); SPoint [1]])])
      by (vm_compute; reflexivity) end.
    says_it.
  - eexists. split; vm_compute; reflexivity.
Qed.
