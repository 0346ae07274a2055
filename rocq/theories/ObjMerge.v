(** Two object sets that have been read can be put together, written, and read
    again. *)
From Verif Require Import ObjModel ObjView ObjImageSpec LexerProofs ExampleText ObjTop ObjWriter ObjImage ObjImageOnly.
Local Open Scope list_scope.

(** All the libraries, and all the objects. *)
Definition merge (A B : object_set) : object_set :=
  mkObjectSet (material_libraries A ++ material_libraries B) (objects A ++ objects B).

Lemma merge_possible : forall P A B, set_possible P A -> set_possible P B ->
  (objects A = [] \/ Forall (fun ob => name ob <> []) (objects B)) -> set_possible P (merge A B).
Proof.
  intros P A B (LA & NA & OA) (LB & NB & OB) H. unfold merge. repeat split; cbn.
  - now apply Forall_app.
  - destruct (objects A) as [|a oa]; cbn in *; auto.
    destruct H as [H|H]; [discriminate|]. split; [apply NA|]. rewrite map_app. apply Forall_app. split; [apply NA|].
    destruct (objects B) as [|b ob]; cbn in *; [constructor|]. inversion H; subst.
    constructor; [|apply NB]. destruct NB as [[N|N] _]; auto. contradiction.
  - now apply Forall_app.
Qed.

Theorem merged_read : forall dbg dbg' dbg'' a b A B, fits a -> fits b -> parse dbg a = Ok A -> parse dbg' b = Ok B ->
  (objects A = [] \/ Forall (fun ob => name ob <> []) (objects B)) -> fits (write_set (merge A B)) ->
  parse dbg'' (write_set (merge A B)) = Ok (merge A B).
Proof.
  intros dbg dbg' dbg'' a b A B Fa Fb Ha Hb H Hf. apply write_set_read; [|exact Hf]. apply merge_possible; auto.
  - exact (parsed_possible _ _ _ Fa Ha).
  - exact (parsed_possible _ _ _ Fb Hb).
Qed.

Definition get {E} (r : outcome E object_set) : object_set := match r with Ok s => s | _ => mkObjectSet [] [] end.

Lemma got : forall E (r : outcome E object_set), match r with Ok _ => true | _ => false end = true -> r = Ok (get r).
Proof. now destruct r. Qed.

Lemma texts_do_not_merge : exists a b A B, parse false a = Ok A /\ parse false b = Ok B /\
  Forall (fun ob => name ob <> []) (objects B) /\ exists e, parse false (a ++ LF :: b) = Err e.
Proof.
  pose (a := text "o a|v 1 2 3|p 1"). pose (b := text "o b|v 4 5 6|p 1").
  exists a, b, (get (parse false a)), (get (parse false b)).
  split; [apply got; vm_compute; reflexivity|]. split; [apply got; vm_compute; reflexivity|]. split.
  - assert (E : map name (objects (get (parse false b))) = [lit "b"]) by (vm_compute; reflexivity).
    apply Forall_forall. intros ob H K. apply (in_map name) in H. rewrite E, K in H. destruct H as [H|[]]. discriminate.
  - destruct (parse false (a ++ LF :: b)) as [s|e|x|] eqn:P; [| now exists e | |].
    all: apply (f_equal (fun r => match r with Err _ => true | _ => false end)) in P; vm_compute in P; discriminate.
Qed.
