(** What [Display] shows, exactly: C79.  The texts are those of DisplayTextSpec.v. *)
From Coq Require Import Floats.SpecFloat.
From Verif Require Import ObjModel DisplayModel DisplayTextSpec ExampleText ObjTop DisplayText FmtProofs FmtText.
Local Open Scope char_scope.
Local Open Scope list_scope.

(** * C79 *)

(** The text of one value.  [index_usize]: no index is [usize::MAX]. *)
Theorem C79_index : forall dbg i t, index_usize i -> show_vtn_index dbg i = Some t <-> index_text t i.
Proof. exact index_exactly. Qed.
Print Assumptions C79_index.

Theorem C79_element : forall dbg e t, Forall index_usize (corners (draw_element e)) -> show_element dbg e = Some t <-> element_text t e.
Proof. exact element_exactly. Qed.
Print Assumptions C79_element.

Theorem C79_group : forall g t, show_group g = Some t <-> t = g.
Proof. intros g t. unfold show_group. split; [intros E; now injection E|now intros ->]. Qed.
Print Assumptions C79_group.

Theorem C79_smoothing_group : forall n t, show_smoothing_group n = Some t <-> smoothing_text t n.
Proof. exact smoothing_exactly. Qed.
Print Assumptions C79_smoothing_group.

Theorem C79_error : forall K (e : parse_error K) t, show_parse_error e = t <->
  exists n, numeral n (N.of_nat (err_line_number e)) /\ t = lit "Parse error at line " ++ n ++ lit ": " ++ err_message e.
Proof. exact error_exactly. Qed.
Print Assumptions C79_error.

(** The text of an object and of an object set. *)
Theorem C79_object : forall dbg ob t, showable ob -> show_object dbg ob = Some t <-> object_text t ob.
Proof. exact object_exactly. Qed.
Print Assumptions C79_object.

Theorem C79_object_set : forall dbg set t, Forall showable (objects set) -> show_object_set dbg set = Some t <-> set_text t set.
Proof. exact set_exactly. Qed.
Print Assumptions C79_object_set.

Theorem C79_parsed : forall dbg dbg' input set, fits input -> ObjModel.parse dbg input = Ok set ->
  forall t, show_object_set dbg' set = Some t <-> set_text t set.
Proof. intros dbg dbg' input set Hf H t. apply set_exactly. exact (parsed_showable _ _ _ Hf H). Qed.
Print Assumptions C79_parsed.

(** Two parsed sets have the same text if and only if they have as many objects, of
    the same names, whose lists have the same lengths and the same first and last
    entries. *)
Theorem C79_alike : forall dbg dbg' dbg1 dbg1' input input' a b, fits input -> fits input' ->
  ObjModel.parse dbg input = Ok a -> ObjModel.parse dbg' input' = Ok b ->
  show_object_set dbg1 a = show_object_set dbg1' b <-> Forall2 objects_alike (objects a) (objects b).
Proof. exact parsed_alike. Qed.
Print Assumptions C79_alike.

(** That is not so of sets that were not parsed: the names of groups can imitate what
    stands between them. *)
Definition grouped (gs : list bytes) : object_set := mkObjectSet [] [mkObject [] [] [] [] gs [] [] [] []].

Theorem C79_every_set_refuted : ~ (forall dbg a b, Forall showable (objects a) -> Forall showable (objects b) ->
  show_object_set dbg a = show_object_set dbg b -> Forall2 objects_alike (objects a) (objects b)).
Proof.
  intros H. specialize (H true (grouped [lit "a) ... (b"; lit "c"]) (grouped [lit "a"; lit "b) ... (c"])).
  assert (S : forall gs, Forall showable (objects (grouped gs))) by (intros gs; repeat constructor).
  specialize (H (S _) (S _) ltac:(vm_compute; reflexivity)). inversion H as [|? ? ? ? (_ & _ & _ & _ & (_ & K & _) & _)]. discriminate K.
Qed.
Print Assumptions C79_every_set_refuted.

(** * Examples *)

Example C79_example : exists a b t, ObjModel.parse true (text "o a|v 0 0 0|v 1 0 0|v 2 0 0|g x y|p 1|l 2 3|p 2|") = Ok a /\
  ObjModel.parse true (text "mtllib m|o a|v 0 0 0|v 5 5 5|v 2 0 0|g x y|usemtl n|p 1 1 2") = Ok b /\ a <> b /\
  show_object_set true a = Some t /\ show_object_set true b = Some t.
Proof.
  eexists _, _, _. split; [vm_compute; reflexivity|]. split; [vm_compute; reflexivity|]. split; [discriminate|]. split; vm_compute; reflexivity.
Qed.

Example C79_example_index : show_vtn_index true (VTN 0 9 1) = Some (lit "1/10/2") /\ index_usize (VTN 0 9 1) /\ index_text (lit "1/10/2") (VTN 0 9 1).
Proof.
  assert (U : index_usize (VTN 0 9 1)).
  { intros k [->|[E|E]]; try injection E as ->; reflexivity. }
  assert (E : show_vtn_index true (VTN 0 9 1) = Some (lit "1/10/2")) by (vm_compute; reflexivity).
  split; [exact E|]. split; [exact U|]. now apply C79_index in E.
Qed.

Example C79_example_element : show_element true (Line (V 0) (V 1)) = Some (lit "l  1  2") /\ show_smoothing_group 7%N = Some (lit "7") /\
  show_smoothing_group 0%N = Some (lit "off") /\ ~ smoothing_text (lit "07") 7%N.
Proof.
  split; [vm_compute; reflexivity|]. split; [vm_compute; reflexivity|]. split; [vm_compute; reflexivity|].
  intros H. apply C79_smoothing_group in H. vm_compute in H. discriminate H.
Qed.
