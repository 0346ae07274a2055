(** Properties of [obj::parse]: C29 (a writer), C47. *)
From Verif Require Import ObjModel ObjView ObjImageSpec LexerProofs ObjTop ObjReach ObjUnique ObjFacts ObjWriter ObjImage ObjImageOnly
  ExampleText Demo.
From Coq Require Import Sorting.Sorted.
Local Open Scope list_scope.

(** * C29 *)

Theorem C29_writer : forall dbg f, well_formed f -> writable is_token f -> fits (write_file f) ->
  parse dbg (write_file f) = Ok (file_means f).
Proof. exact write_file_read. Qed.
Print Assumptions C29_writer.

(** Whatever a text says can be written. *)
Theorem C29_writer_complete : forall dbg input f, fits input -> says input f -> Forall drawable (file_objects f) ->
  fits (write_file f) -> well_formed f /\ writable is_token f /\ parse dbg (write_file f) = Ok (file_means f).
Proof. exact says_written. Qed.
Print Assumptions C29_writer_complete.

Definition half : spec_float := S754_finite false 4503599627370496 (-53).
Definition one : spec_float := S754_finite false 4503599627370496 (-52).
Definition zero : spec_float := S754_zero false.

Definition small_file : obj_file :=
  mkObjFile [lit "a.mtl"]
    [([], [SVertex (mkVertex half zero one one); SVertex (mkVertex zero half zero half); SGroup [lit "x"; lit "y"]; SSmooth 7;
           SLine [mkRef 1 None None; mkRef 2 None None]]);
     (lit "b", [STexture (mkTextureVertex one half zero); SVertex (mkVertex zero zero zero one); SUse (lit "m");
                SPoint [3]; SGroup []; SFace [mkRef 3 (Some 1) None; mkRef 3 (Some 1) None; mkRef 3 (Some 1) None]])].

Example C29_writer_example :
  write_file small_file = text "mtllib a.mtl|v 0.5 0 1 1|v 0 0.5 0 0.5|g x y|s 7|l 1 2|o b|vt 1 0.5 0|v 0 0 0 1|usemtl m|p 3|g|f 3/1 3/1 3/1|" /\
  parse true (write_file small_file) = Ok (file_means small_file).
Proof. split; vm_compute; reflexivity. Qed.

(** * C47 *)

(** What an object set returned by [obj::parse] is like. *)
Theorem C47_only : forall dbg input set, fits input -> valid_utf8 input -> parse dbg input = Ok set ->
  set_possible (fun n => is_token n /\ valid_utf8 n) set.
Proof. exact parsed_possible_utf8. Qed.
Print Assumptions C47_only.

(** Everything like that is returned for some text. *)
Theorem C47_all : forall dbg set, set_possible (fun n => is_token n /\ valid_utf8 n) set -> fits (write_set set) ->
  valid_utf8 (write_set set) /\ parse dbg (write_set set) = Ok set.
Proof. exact every_set. Qed.
Print Assumptions C47_all.

(** So a set that has been read can be written and read again. *)
Theorem C47_again : forall dbg dbg' input set, fits input -> parse dbg input = Ok set -> fits (write_set set) ->
  parse dbg' (write_set set) = Ok set.
Proof. exact parsed_again. Qed.
Print Assumptions C47_again.

Definition small_set : object_set :=
  mkObjectSet [lit "a.mtl"]
    [{| name := []; vertex_set := [mkVertex half zero one one; mkVertex zero half zero half]; texture_vertex_set := [];
        normal_vertex_set := [mkNormalVertex one zero zero]; group_set := [lit "w"; lit "x"; lit "y"; lit "z"];
        smoothing_group_set := [7%N; 8%N; 0%N];
        element_set := [Point (V 0); Line (V 1) (V 0); Face (VN 0 0) (VN 1 0) (VN 1 0)];
        shape_set := [mkShapeEntry 0 [1; 2] 1; mkShapeEntry 1 [1; 2] 1; mkShapeEntry 2 [] 2];
        geometry_set := [mkGeometry None [0; 1]; mkGeometry (Some (lit "m")) [2]; mkGeometry (Some (lit "n")) []] |};
     {| name := lit "b"; vertex_set := [mkVertex zero zero zero one]; texture_vertex_set := [];
        normal_vertex_set := []; group_set := [lit "default"]; smoothing_group_set := [0%N]; element_set := [Point (V 0)];
        shape_set := [mkShapeEntry 0 [0] 0]; geometry_set := [mkGeometry None [0]] |}].

Example C47_example :
  write_set small_set = text ("mtllib a.mtl|v 0.5 0 1 1|v 0 0.5 0 0.5|vn 1 0 0|g w|g x y|s 7|s 8|p 1|l 2 1|usemtl m|g|s 0|" ++
                              "f 1//1 2//1 2//1|usemtl n|g z|o b|v 0 0 0 1|g default|s 0|p 3|") /\
  parse true (write_set small_set) = Ok small_set.
Proof. split; vm_compute; reflexivity. Qed.

Definition with_groups (a b : list nat) : object :=
  {| name := []; vertex_set := [mkVertex zero zero zero one]; texture_vertex_set := []; normal_vertex_set := [];
     group_set := [lit "x"; lit "y"]; smoothing_group_set := [0%N]; element_set := [Point (V 0); Point (V 0)];
     shape_set := [mkShapeEntry 0 a 0; mkShapeEntry 1 b 0]; geometry_set := [mkGeometry None [0; 1]] |}.

(** The set above meets the hypotheses of [C47_all]. *)
Example C47_example_possible : set_possible (fun n => is_token n /\ valid_utf8 n) small_set /\ fits (write_set small_set).
Proof.
  assert (H : fits (write_set small_set)) by (vm_compute; discriminate).
  split; [|exact H]. apply (C47_only true (write_set small_set)); [exact H| |vm_compute; reflexivity].
  apply all_ascii_utf8. vm_compute. reflexivity.
Qed.

(** Elements do not go back to an earlier group. *)
Example C47_example_impossible :
  parse true (write_set (mkObjectSet [] [with_groups [0] [1]])) = Ok (mkObjectSet [] [with_groups [0] [1]]) /\
  forall dbg input, fits input -> parse dbg input <> Ok (mkObjectSet [] [with_groups [1] [0]]).
Proof.
  split; [vm_compute; reflexivity|]. intros dbg input Hf Hok. apply parsed_possible in Hok; [|exact Hf].
  destruct Hok as (_ & _ & H). inversion H as [|? ? H1 _]; subst. pose proof (possible_shape_groups _ _ H1) as G. cbn in G. clear H H1.
  inversion G as [| |? ? first k gs L1 L2 L3 G'|]; subst. destruct k as [|[|k]]; cbn in *; try lia; try discriminate.
  match goal with E : first :: _ = _ |- _ => injection E as -> end.
  inversion G' as [| |? ? first k gs' M1 M2 M3 _ E|]; subst. destruct k as [|[|k]]; cbn in *; try lia; try discriminate.
Qed.
