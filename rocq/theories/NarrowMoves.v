(** The parsers of NarrowModel.v and NarrowMtlModel.v change their lexer and line
    number by [peek] and [next] only: C81. *)
From Verif Require Import ObjModel UsizeModel UsizeProofs NarrowModel.
From Verif Require MtlModel NarrowMtlModel.
Local Open Scope list_scope.

Section Moves.
Context (P : parser lexer_source -> Prop).
Context (P_peek : forall K p, P p -> P (snd (peek (K := K) p))).
Context (P_next : forall K p, P p -> P (snd (next (K := K) p))).
Local Notation keeps := (keeps P).

Lemma keeps_still : forall K A (m : M lexer_source K A), (forall p, snd (m p) = p) -> keeps m.
Proof. intros K A m H p Hp. now rewrite H. Qed.

Lemma keeps_catch : forall K A (m : M lexer_source K A), keeps m -> keeps (catch m).
Proof. intros K A m H p Hp. specialize (H p Hp). unfold catch. destruct (m p) as [[a|e|x|] q]; exact H. Qed.

Lemma keeps_for_each : forall K A X (body : A -> X -> M lexer_source K A) xs a,
  (forall a x, keeps (body a x)) -> keeps (for_each xs body a).
Proof.
  intros K A X body xs. induction xs as [|x xs IH]; intros a H; cbn; [apply keeps_ret|]. apply keeps_bind; auto.
Qed.

Ltac still := apply keeps_still; intro; reflexivity.

Ltac head t := match t with ?f _ => head f | _ => t end.

(** The last case opens the definition of a function without a lemma here. *)
Ltac walk_with tac :=
  repeat (cbn zeta; first
    [ apply keeps_ret | apply keeps_error | apply keeps_peek; assumption | apply keeps_next; assumption
    | still | tac
    | apply keeps_bind; [|intros ?] | apply keeps_loop; intros ? | apply keeps_for_each; intros ? ? | apply keeps_catch
    | match goal with |- UsizeProofs.keeps _ (match ?x with _ => _ end) => destruct x end
    | match goal with |- UsizeProofs.keeps _ ?m => let h := head m in unfold h end ]).

Context (bits : Z) (dbg : bool) (fuel : nat).

Lemma k_add : forall a b, keeps (narrow_add bits dbg a b).
Proof. intros a b. unfold narrow_add. walk_with fail. Qed.

Lemma k_sub : forall a b, keeps (narrow_sub bits dbg a b).
Proof. intros a b. unfold narrow_sub. walk_with fail. Qed.

Lemma k_assert : forall K b, keeps (debug_assert (K := K) dbg b).
Proof. intros K b. unfold debug_assert. walk_with fail. Qed.

Lemma k_len : forall K A (l : list A) n, keeps (len_minus (K := K) dbg l n).
Proof. intros K A l n. unfold len_minus. walk_with fail. Qed.

Lemma k_index : forall K A (l : list A) n, keeps (index (K := K) l n).
Proof. intros K A l n. unfold index. walk_with fail. Qed.

Lemma k_result : forall K A (r : A + parse_error K), keeps (from_result r).
Proof. intros K A r p H. now destruct r. Qed.

Ltac small := first [apply k_result|apply k_add|apply k_sub|apply k_assert|apply k_len|apply k_index].

Lemma k_calculate_index : forall r z, keeps (narrow_calculate_index bits dbg r z).
Proof. intros r z. unfold narrow_calculate_index. walk_with small. Qed.

Lemma k_process_next : forall l r, keeps (narrow_process_next bits dbg l r).
Proof. intros l r. unfold narrow_process_next, narrow_process_split. walk_with ltac:(first [apply k_calculate_index|small]). Qed.

Lemma k_vtn_index : forall a b c, keeps (narrow_parse_vtn_index bits dbg a b c).
Proof. intros a b c. unfold narrow_parse_vtn_index, next_string. walk_with ltac:(first [apply k_process_next|small]). Qed.

Lemma k_vtn_indices : forall l a b c, keeps (narrow_parse_vtn_indices bits dbg fuel l a b c).
Proof. intros l a b c. unfold narrow_parse_vtn_indices. walk_with ltac:(first [apply k_vtn_index|small]). Qed.

Lemma k_elements : forall es a b c, keeps (narrow_parse_elements bits dbg fuel es a b c).
Proof.
  intros es a b c. walk_with ltac:(first [apply k_calculate_index|apply k_vtn_index|apply k_vtn_indices|small]).
Qed.

Lemma k_element : forall st, keeps (narrow_parse_object_element bits dbg fuel st).
Proof.
  intro st. unfold narrow_parse_object_element. cbn zeta. apply keeps_bind; [apply k_elements|intros ?]. walk_with small.
Qed.

Lemma k_body : forall st, keeps (narrow_parse_object_body bits dbg fuel st).
Proof. intro st. walk_with ltac:(first [apply k_element|small]). Qed.

Lemma k_object : forall r, keeps (narrow_parse_object bits dbg fuel r).
Proof. intro r. walk_with ltac:(first [apply k_body|small]). Qed.

Lemma k_objset : keeps (narrow_parse_objset bits dbg fuel).
Proof. walk_with ltac:(first [apply k_object|small]). Qed.

Lemma k_mtlset : keeps (NarrowMtlModel.narrow_parse_mtlset bits fuel).
Proof. walk_with fail. Qed.

End Moves.

Lemma reached_peek' : forall input K p, reached input p -> reached input (snd (peek (K := K) p)).
Proof.
  intros input K p H. replace (snd (peek (K := K) p)) with (snd (peek (K := Empty_set) p)) by now rewrite !peek_eq. now constructor.
Qed.

Lemma reached_next' : forall input K p, reached input p -> reached input (snd (next (K := K) p)).
Proof.
  intros input K p H. replace (snd (next (K := K) p)) with (snd (next (K := Empty_set) p)) by now rewrite !next_eq. now constructor.
Qed.

Lemma narrow_obj_reached : forall bits dbg input,
  reached input (snd (narrow_parse_objset bits dbg (fuel_for input) (parser_new input))).
Proof.
  intros bits dbg input. apply k_objset; [apply reached_peek'|apply reached_next'|constructor].
Qed.

Lemma narrow_mtl_reached : forall bits input,
  reached input (snd (NarrowMtlModel.narrow_parse_mtlset bits (MtlModel.fuel_for input) (parser_new input))).
Proof.
  intros bits input. apply k_mtlset; [apply reached_peek'|apply reached_next'|constructor].
Qed.
