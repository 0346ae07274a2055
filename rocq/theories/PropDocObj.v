(** C70: docs/obj_spec.pdf, the format specification that comes with the crate.

    DocObjSpec.v has its polygonal statements and what they mean. *)
From Verif Require Import ObjModel DocObjSpec DocObj LexerProofs GrammarProofs ObjErrorSpec ObjView ObjFacts ObjTop ExampleText.
Local Open Scope list_scope.

(** A supported file is accepted, and the result shows what the file draws, but
    with the state set back at each [o]. *)
Theorem C70_meaning : forall dbg input d, fits input -> obj_doc_text input d -> Forall obj_documented d -> obj_supported d ->
  exists set xs, parse dbg input = Ok set /\ material_libraries set = doc_libraries d /\
    picture false start d xs /\ shows get_vtn_triple set xs.
Proof. exact doc_obj. Qed.
Print Assumptions C70_meaning.

(** With one object: what the document says. *)
Theorem C70_one_object : forall dbg input d, fits input -> obj_doc_text input d -> Forall obj_documented d -> obj_supported d ->
  one_object d ->
  exists set xs, parse dbg input = Ok set /\ material_libraries set = doc_libraries d /\
    picture true start d xs /\ shows get_vtn_triple set xs.
Proof. exact doc_one_object. Qed.
Print Assumptions C70_one_object.

(** There is only one picture of a file. *)
Theorem C70_picture : forall keep p d xs ys, picture keep p d xs -> picture keep p d ys -> xs = ys.
Proof. exact picture_unique. Qed.
Print Assumptions C70_picture.

Ltac number := vm_compute; reflexivity.
Ltac doc_lines l :=
  exists (map (map lit) l), (map (map lit) l); cbn [map];
  split; [repeat apply Forall2_cons; [..|apply Forall2_nil]|
    split; [repeat first [apply blanks_end | apply blanks_line]|apply tokenizes_iff; vm_compute; reflexivity]].
Ltac shaped := repeat (constructor; [repeat split; reflexivity|]); try constructor.

Definition origin : vertex := mkVertex f64_zero f64_zero f64_zero f64_one.
Definition first_point : doc_statement := DocPoint [1%Z].

(** State is not kept at an [o]. *)
Theorem C70_state_refuted :
  ~ (forall input d set xs, fits input -> obj_doc_text input d -> Forall obj_documented d -> parse false input = Ok set ->
       picture true start d xs -> shows get_vtn_triple set xs).
Proof.
  intro H.
  set (d := [DocVertex origin; DocGroup [lit "a"]; first_point; DocObject (lit "b"); DocVertex origin; DocPoint [2%Z]]).
  assert (P : exists set, parse false (text "v 0 0 0|g a|p 1|o b|v 0 0 0|p 2|") = Ok set /\
    flat_map (fun ob => map (fun j => match nth_error (shape_set ob) j with
                                      | Some se => map (nth_error (group_set ob)) (se_groups se)
                                      | None => []
                                      end) (seq 0 (length (element_set ob)))) (objects set) =
      [[Some (lit "a")]; [Some (lit "default")]]).
  { eexists. split; [vm_compute; reflexivity|vm_compute; reflexivity]. }
  destruct P as (set & P & Q).
  assert (T : shows get_vtn_triple set
    [mkDrawing (DPoint (TripleV origin)) [lit "a"] 0%N None []; mkDrawing (DPoint (TripleV origin)) [lit "a"] 0%N None (lit "b")]).
  { apply (H (text "v 0 0 0|g a|p 1|o b|v 0 0 0|p 2|") d).
    - vm_compute. discriminate.
    - doc_lines [["v"; "0"; "0"; "0"]; ["g"; "a"]; ["p"; "1"]; ["o"; "b"]; ["v"; "0"; "0"; "0"]; ["p"; "2"]]%string.
      + apply line_v; number.
      + apply line_g. constructor; [tag|constructor].
      + apply line_p. constructor; [number|constructor].
      + apply line_o. tag.
      + apply line_v; number.
      + apply line_p. constructor; [number|constructor].
    - repeat (apply Forall_cons; [first [exact I|discriminate]|]). apply Forall_nil.
    - exact P.
    - unfold d.
      refine (picture_more _ _ _ _ [] _ _ _); [constructor|].
      refine (picture_more _ _ _ _ [] _ _ _); [constructor|].
      refine (picture_more _ _ _ _ [_] _ _ _); [shaped|].
      refine (picture_more _ _ _ _ [] _ _ _); [constructor|].
      refine (picture_more _ _ _ _ [] _ _ _); [constructor|].
      refine (picture_more _ _ _ _ [_] [] _ _); [shaped|constructor]. }
  apply shows_groups in T. rewrite Q in T. cbn [map dr_groups] in T. discriminate T.
Qed.
Print Assumptions C70_state_refuted.

(** A face with a relative reference can be misread: the reference, and what
    comes after it, is dropped. *)
Theorem C70_relative_refuted :
  ~ (forall input d set xs, fits input -> obj_doc_text input d -> Forall obj_documented d -> (forall n, ~ In (DocObject n) d) ->
       parse false input = Ok set -> picture true start d xs -> shows get_vtn_triple set xs).
Proof.
  intro H. set (r k := mkDocRef k None None).
  set (d := [DocVertex origin; DocVertex origin; DocVertex origin; DocVertex origin; DocFace [r 1%Z; r 2%Z; r 3%Z; r (-1)%Z]]).
  assert (P : exists set, parse false (text "v 0 0 0|v 0 0 0|v 0 0 0|v 0 0 0|f 1 2 3 -1|") = Ok set /\
    list_sum (map (fun ob => length (element_set ob)) (objects set)) = 1).
  { eexists. split; [vm_compute; reflexivity|vm_compute; reflexivity]. }
  destruct P as (set & P & Q).
  set (x := mkDrawing (DFace (TripleV origin) (TripleV origin) (TripleV origin)) [lit "default"] 0%N None []).
  assert (T : shows get_vtn_triple set [x; x]).
  { apply (H (text "v 0 0 0|v 0 0 0|v 0 0 0|v 0 0 0|f 1 2 3 -1|") d).
    - vm_compute. discriminate.
    - doc_lines [["v"; "0"; "0"; "0"]; ["v"; "0"; "0"; "0"]; ["v"; "0"; "0"; "0"]; ["v"; "0"; "0"; "0"]; ["f"; "1"; "2"; "3"; "-1"]]%string.
all: try (apply line_v; number).
      apply line_f. repeat apply Forall2_cons; [| | | |apply Forall2_nil]; apply token_v; number.
    - do 4 (apply Forall_cons; [exact I|]). apply Forall_cons; [|apply Forall_nil]. split; [cbn; lia|]. intros a b Ha Hb.
      repeat (destruct Ha as [<-|Ha]; [repeat (destruct Hb as [<-|Hb]; [reflexivity|]); destruct Hb|]). destruct Ha.
    - intros n Hn. cbn in Hn. repeat (destruct Hn as [Hn|Hn]; [discriminate|]). destruct Hn.
    - exact P.
    - unfold d.
      do 4 (refine (picture_more _ _ _ _ [] _ _ _); [constructor|]).
      refine (picture_more _ _ _ _ [_; _] [] _ _); [shaped|constructor]. }
  apply shows_length in T. rewrite Q in T. discriminate T.
Qed.
Print Assumptions C70_relative_refuted.

(** Vertices of earlier objects cannot be used, although the numbering goes
    through the whole file. *)
Theorem C70_scope_refuted :
  ~ (forall input d xs, fits input -> obj_doc_text input d -> Forall obj_documented d -> picture false start d xs ->
       picture true start d xs -> exists set, parse false input = Ok set).
Proof.
  intro H.
  destruct (H (text "v 0 0 0|p 1|o b|p 1|") [DocVertex origin; first_point; DocObject (lit "b"); first_point]
    [mkDrawing (DPoint (TripleV origin)) [lit "default"] 0%N None []; mkDrawing (DPoint (TripleV origin)) [lit "default"] 0%N None (lit "b")])
    as (set & S).
  - vm_compute. discriminate.
  - doc_lines [["v"; "0"; "0"; "0"]; ["p"; "1"]; ["o"; "b"]; ["p"; "1"]]%string.
    + apply line_v; number.
    + apply line_p. constructor; [number|constructor].
    + apply line_o. tag.
    + apply line_p. constructor; [number|constructor].
  - repeat (apply Forall_cons; [first [exact I|discriminate]|]). apply Forall_nil.
  - refine (picture_more _ _ _ _ [] _ _ _); [constructor|].
    refine (picture_more _ _ _ _ [_] _ _ _); [shaped|].
    refine (picture_more _ _ _ _ [] _ _ _); [constructor|].
    refine (picture_more _ _ _ _ [_] [] _ _); [shaped|constructor].
  - refine (picture_more _ _ _ _ [] _ _ _); [constructor|].
    refine (picture_more _ _ _ _ [_] _ _ _); [shaped|].
    refine (picture_more _ _ _ _ [] _ _ _); [constructor|].
    refine (picture_more _ _ _ _ [_] [] _ _); [shaped|constructor].
  - vm_compute in S. discriminate S.
Qed.
Print Assumptions C70_scope_refuted.

(** [mtllib] is rejected after other statements. *)
Theorem C70_library_refuted :
  ~ (forall input d, fits input -> obj_doc_text input d -> Forall obj_documented d -> own_refs start start d ->
       (forall n, ~ In (DocObject n) d) -> has_element d -> exists set, parse false input = Ok set).
Proof.
  intro H.
  destruct (H (text "v 0 0 0|p 1|mtllib a|") [DocVertex origin; first_point; DocLibrary [lit "a"]]) as (set & S).
  - vm_compute. discriminate.
  - doc_lines [["v"; "0"; "0"; "0"]; ["p"; "1"]; ["mtllib"; "a"]]%string.
    + apply line_v; number.
    + apply line_p. constructor; [number|constructor].
    + apply line_mtllib. constructor; [tag|constructor].
  - repeat (apply Forall_cons; [first [exact I|discriminate]|]). apply Forall_nil.
  - cbn [own_refs doc_shapes first_point map]. repeat split; try apply Forall_nil.
    apply Forall_cons; [|apply Forall_nil]. apply Forall_cons; [|apply Forall_nil]. repeat split; cbn; lia.
  - intros n Hn. cbn in Hn. repeat (destruct Hn as [Hn|Hn]; [discriminate|]). destruct Hn.
  - exists first_point. split; [right; now left|]. left. discriminate.
  - vm_compute in S. discriminate S.
Qed.
Print Assumptions C70_library_refuted.

(** * Examples *)

Ltac form := let a := fresh in let b := fresh in let Ha := fresh in let Hb := fresh in intros a b Ha Hb;
  repeat (destruct Ha as [<-|Ha]; [repeat (destruct Hb as [<-|Hb]; [reflexivity|]); destruct Hb|]); destruct Ha.

Ltac owned := cbv beta iota delta [own_refs doc_shapes map pairs first_point];
  repeat (split; [repeat apply Forall_cons; try apply Forall_nil; vm_compute; repeat split; discriminate|]); exact I.

(** Two objects, with most of the statements. *)
Definition squares : list doc_statement :=
  let r k n := mkDocRef k None (Some n) in
  [DocLibrary [lit "a.mtl"; lit "b.mtl"]; DocVertex origin; DocVertex origin; DocVertex origin; DocVertex origin;
   DocNormal (mkNormalVertex f64_zero f64_zero f64_one); DocGroup [lit "square"; lit "all"]; DocSmooth 1; DocUse (lit "blue");
   DocFace [r 1%Z 1%Z; r 2%Z 1%Z; r 3%Z 1%Z; r 4%Z 1%Z];
   DocObject (lit "next"); DocVertex origin; DocTexture (mkTextureVertex f64_one f64_zero f64_zero);
   DocLine [mkDocRef 5 (Some 1%Z) None; mkDocRef 5 (Some 1%Z) None]; DocPoint [5%Z]].

Example C70_example :
  let input := text "mtllib a.mtl b.mtl||# four|v 0 0 0|v 0 0 0|v 0 0 0 1|v 0 0 0|vn 0 0 1|g square all|s 1|usemtl blue|f 1//1 2//1 3//1 4//1|o next|v 0 0 0|vt 1|l 5/1 5/1|p 5|" in
  fits input /\ obj_doc_text input squares /\ Forall obj_documented squares /\ obj_supported squares.
Proof.
  cbv zeta. split; [vm_compute; discriminate|]. split; [|split].
  - set (top := map (map lit) [["mtllib"; "a.mtl"; "b.mtl"]]%string).
    set (more := map (map lit) [["v"; "0"; "0"; "0"]; ["v"; "0"; "0"; "0"]; ["v"; "0"; "0"; "0"; "1"]; ["v"; "0"; "0"; "0"];
      ["vn"; "0"; "0"; "1"]; ["g"; "square"; "all"]; ["s"; "1"]; ["usemtl"; "blue"]; ["f"; "1//1"; "2//1"; "3//1"; "4//1"]; ["o"; "next"];
      ["v"; "0"; "0"; "0"]; ["vt"; "1"]; ["l"; "5/1"; "5/1"]; ["p"; "5"]]%string).
    exists (top ++ more), (top ++ [] :: [] :: more). unfold top, more. cbn [map app]. split; [|split].
    + unfold squares. cbv zeta. repeat apply Forall2_cons; [..|apply Forall2_nil].
      * apply line_mtllib. repeat (constructor; [tag|]). constructor.
      * apply line_v; number.
      * apply line_v; number.
      * apply line_v_weight; number.
      * apply line_v; number.
      * apply line_vn; number.
      * apply line_g. repeat (constructor; [tag|]). constructor.
      * apply line_s. number.
      * apply line_usemtl. tag.
      * apply line_f. repeat apply Forall2_cons; [..|apply Forall2_nil].
        -- apply (token_vn (lit "1") (lit "1")); number.
        -- apply (token_vn (lit "2") (lit "1")); number.
        -- apply (token_vn (lit "3") (lit "1")); number.
        -- apply (token_vn (lit "4") (lit "1")); number.
      * apply line_o. tag.
      * apply line_v; number.
      * apply line_vt_1. number.
      * apply line_l. repeat apply Forall2_cons; [..|apply Forall2_nil]; apply (token_vt (lit "5") (lit "1")); number.
      * apply line_p. constructor; [number|constructor].
    + apply blanks_line, blanks_blank, blanks_blank. repeat first [apply blanks_end | apply blanks_line].
    + apply tokenizes_iff. vm_compute. reflexivity.
  - unfold squares. cbv zeta. repeat apply Forall_cons; [..|apply Forall_nil]; try exact I; try discriminate.
    + split; [cbn; lia|]. form.
    + split; [cbn; lia|]. split; [form|]. repeat constructor.
  - split; [|split].
    + exists [[lit "a.mtl"; lit "b.mtl"]]. eexists. split; reflexivity.
    + unfold squares. cbv zeta. owned.
    + cbn -[lit origin f64_zero f64_one]. split.
      * right. exists (DocUse (lit "blue")). split; [cbn; tauto|]. right. eauto.
      * constructor; [|constructor]. exists (DocPoint [5%Z]). split; [cbn; tauto|]. left. discriminate.
Qed.

(** One object, with the name in front. *)
Example C70_one_object_example :
  let d := [DocObject (lit "a"); DocVertex origin; DocGroup [lit "g1"]; first_point] in
  let input := text "o a|v 0 0 0|g g1|p 1|" in
  fits input /\ obj_doc_text input d /\ Forall obj_documented d /\ obj_supported d /\ one_object d.
Proof.
  cbv zeta. split; [vm_compute; discriminate|]. split; [|split; [|split]].
  - doc_lines [["o"; "a"]; ["v"; "0"; "0"; "0"]; ["g"; "g1"]; ["p"; "1"]]%string.
    + apply line_o. tag.
    + apply line_v; number.
    + apply line_g. constructor; [tag|constructor].
    + apply line_p. constructor; [number|constructor].
  - repeat apply Forall_cons; [..|apply Forall_nil]; try exact I; discriminate.
  - split; [|split].
    + exists []. eexists. split; reflexivity.
    + owned.
    + cbn -[lit origin]. split; [now left|]. constructor; [|constructor]. exists first_point. split; [cbn; tauto|]. left. discriminate.
  - intros [|s a] n b E; [constructor|]. cbn [app] in E. injection E as <- E.
    repeat (destruct a as [|? a]; cbn [app] in E; [discriminate E|injection E as <- E]). destruct a; discriminate E.
Qed.

(** The polygonal examples of the document: pages B1-20, B1-43, B1-44 and B1-45
    are accepted; the one with relative references, B1-21, is rejected. *)
Example doc_obj_examples_accepted :
  forallb (fun t => match parse false (text t) with Ok _ => true | _ => false end)
    ["v 0.000000 2.000000 0.000000|v 0.000000 0.000000 0.000000|v 2.000000 0.000000 0.000000|v 2.000000 2.000000 0.000000|f 1 2 3 4|";
     "v 0.000000 2.000000 2.000000|v 0.000000 0.000000 2.000000|v 2.000000 0.000000 2.000000|v 2.000000 2.000000 2.000000|v 0.000000 2.000000 0.000000|v 0.000000 0.000000 0.000000|v 2.000000 0.000000 0.000000|v 2.000000 2.000000 0.000000|f 1 2 3 4|f 8 7 6 5|f 4 3 7 8|f 5 1 4 8|f 5 6 2 1|f 2 6 7 3|";
     "v 0.000000 2.000000 2.000000|v 0.000000 0.000000 2.000000|v 2.000000 0.000000 2.000000|v 2.000000 2.000000 2.000000|v 0.000000 2.000000 0.000000|v 0.000000 0.000000 0.000000|v 2.000000 0.000000 0.000000|v 2.000000 2.000000 0.000000|# 8 vertices|g front cube|f 1 2 3 4|g back cube|f 8 7 6 5|g right cube|f 4 3 7 8|g top cube|f 5 1 4 8|g left cube|f 5 6 2 1|g bottom cube|f 2 6 7 3|# 6 elements|";
     "v 0.000000 2.000000 0.000000|v 0.000000 0.000000 0.000000|v 2.000000 0.000000 0.000000|v 2.000000 2.000000 0.000000|v 4.000000 0.000000 -1.255298|v 4.000000 2.000000 -1.255298|# 6 vertices|g all|s 1|f 1 2 3 4|f 4 3 5 6|# 2 elements|";
     "v 0.000000 2.000000 0.000000|v 0.000000 0.000000 0.000000|v 2.000000 0.000000 0.000000|v 2.000000 2.000000 0.000000|v 4.000000 0.000000 -1.255298|v 4.000000 2.000000 -1.255298|vn 0.000000 0.000000 1.000000|vn 0.000000 0.000000 1.000000|vn 0.276597 0.000000 0.960986|vn 0.276597 0.000000 0.960986|vn 0.531611 0.000000 0.846988|vn 0.531611 0.000000 0.846988|# 6 vertices|# 6 normals|g all|s 1|f 1//1 2//2 3//3 4//4|f 4//4 3//3 5//5 6//6|# 2 elements|"]%string = true.
Proof. vm_compute. reflexivity. Qed.

Example doc_obj_examples_rejected :
  (match parse false (text
    "v 0.000000 2.000000 2.000000|v 0.000000 0.000000 2.000000|v 2.000000 0.000000 2.000000|v 2.000000 2.000000 2.000000|f -4 -3 -2 -1|v 2.000000 2.000000 0.000000|v 2.000000 0.000000 0.000000|v 0.000000 0.000000 0.000000|v 0.000000 2.000000 0.000000|f -4 -3 -2 -1|v 2.000000 2.000000 2.000000|v 2.000000 0.000000 2.000000|v 2.000000 0.000000 0.000000|v 2.000000 2.000000 0.000000|f -4 -3 -2 -1|v 0.000000 2.000000 0.000000|v 0.000000 2.000000 2.000000|v 2.000000 2.000000 2.000000|v 2.000000 2.000000 0.000000|f -4 -3 -2 -1|v 0.000000 2.000000 0.000000|v 0.000000 0.000000 0.000000|v 0.000000 0.000000 2.000000|v 0.000000 2.000000 2.000000|f -4 -3 -2 -1|v 0.000000 0.000000 2.000000|v 0.000000 0.000000 0.000000|v 2.000000 0.000000 0.000000|v 2.000000 0.000000 2.000000|f -4 -3 -2 -1|") with Err _ => true | _ => false end) = true.
Proof. vm_compute. reflexivity. Qed.

(** * Documentation comments *)

(** C10: obj.rs:127-128 says of the [w] of a vertex: "The default value of this
    field is 0 when the w coordinate is not present."  It is 1 (C10_vertex_text);
    with 0 the statement is false. *)
Theorem C10_doc_comment_refuted :
  ~ (forall dbg input set, fits input -> parse dbg input = Ok set ->
     forall ts, tokenizes input ts -> forall done n before a b c rest,
     reaches ts done (Some (n, before)) (lit "v" :: a :: b :: c :: rest) ->
     exists ob x y z w, nth_error (objects set) (length done) = Some ob /\
       float_token a x /\ float_token b y /\ float_token c z /\ next_number f64_zero rest w /\
       nth_error (vertex_set ob) (length (all_vertices before)) = Some (mkVertex x y z w)).
Proof.
  intros H. set (input := text "v 1 2 3|p 1|").
  assert (E : exists set, parse true input = Ok set /\ map (fun ob => map vw (vertex_set ob)) (objects set) = [[f64_one]])
    by (eexists; split; vm_compute; reflexivity).
  destruct E as (set & E & Ew).
  destruct (H true input set) with (ts := [lit "v"; lit "1"; lit "2"; lit "3"; nl; lit "p"; lit "1"; nl])
    (done := @nil (bytes * list statement)) (n := @nil byte) (before := @nil statement)
    (a := lit "1") (b := lit "2") (c := lit "3") (rest := [nl; lit "p"; lit "1"; nl])
    as (ob & x & y & z & w & Ho & _ & _ & _ & Hn & Hv).
  - vm_compute. discriminate.
  - exact E.
  - apply tokenizes_iff. vm_compute. reflexivity.
  - apply reaches_unnamed; [|discriminate]. apply (reaches_start _ []). apply libraries_end. split; discriminate.
  - assert (K : w = f64_zero) by (vm_compute in Hn; exact Hn). subst w.
    destruct (objects set) as [|ob' l]; [discriminate|]. cbn [length nth_error] in Ho. injection Ho as ->.
    cbn [map] in Ew. injection Ew as Ew _. destruct (vertex_set ob) as [|v' l']; [discriminate|].
    cbn [length all_vertices flat_map nth_error] in Hv. injection Hv as ->. cbn [map vw] in Ew. discriminate.
Qed.
Print Assumptions C10_doc_comment_refuted.
