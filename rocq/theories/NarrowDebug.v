(** Debug and release builds on a platform with smaller words: C81. *)
From Verif Require Import ObjModel NarrowModel NarrowSpec NarrowProofs.
Local Open Scope list_scope.

Section Lax.
Context {S : token_source} (bits : Z) (fuel : nat).
Local Notation M := (M S error_kind).

(** The debug build panics, or does the same. *)
Definition lax {A} (m' m : M A) : Prop := forall p, (exists x q, m' p = (Panic x, q)) \/ m' p = m p.

Lemma lax_refl : forall A (m : M A), lax m m.
Proof. intros A m p. now right. Qed.

Lemma lax_bind : forall A B (m' m : M A) (f' f : A -> M B), lax m' m -> (forall a, lax (f' a) (f a)) -> lax (bind m' f') (bind m f).
Proof.
  intros A B m' m f' f Hm Hf p. unfold bind. destruct (Hm p) as [(x & q & E)|E]; rewrite E; [left; eauto|].
  destruct (m p) as [[a|e|x|] q]; [apply Hf|now right|now right|now right].
Qed.

Lemma lax_catch : forall A (m' m : M A), lax m' m -> lax (catch m') (catch m).
Proof. intros A m' m H p. unfold catch. destruct (H p) as [(x & q & E)|E]; rewrite E; [left; eauto|now right]. Qed.

Lemma lax_loop : forall A B (body' body : A -> M (step A B)) n a,
  (forall a, lax (body' a) (body a)) -> lax (loop n body' a) (loop n body a).
Proof.
  intros A B body' body n. induction n as [|n IH]; intros a H; cbn; [apply lax_refl|].
  apply lax_bind; auto. intros [a'|b]; [now apply IH|apply lax_refl].
Qed.

Lemma lax_for_each : forall A X (body' body : A -> X -> M A) xs a,
  (forall a x, lax (body' a x) (body a x)) -> lax (for_each xs body' a) (for_each xs body a).
Proof.
  intros A X body' body xs. induction xs as [|x xs IH]; intros a H; cbn; [apply lax_refl|]. apply lax_bind; auto.
Qed.

Lemma lax_panics : forall A x (m : M A), lax (panics x) m.
Proof. intros A x m p. left. exists x, p. reflexivity. Qed.

Lemma lax_add : forall a b, lax (narrow_add bits true a b) (narrow_add bits false a b).
Proof. intros a b. unfold narrow_add. destruct (_ <=? _)%Z; [apply lax_refl|apply lax_panics]. Qed.

Lemma lax_sub : forall a b, lax (narrow_sub bits true a b) (narrow_sub bits false a b).
Proof. intros a b. unfold narrow_sub. destruct (in_int bits (a - b)); [apply lax_refl|apply lax_panics]. Qed.

Lemma lax_assert : forall b, lax (debug_assert true b) (debug_assert false b).
Proof. intros []; [apply lax_refl|apply lax_panics]. Qed.

Lemma lax_len : forall A (l : list A) n, lax (len_minus true l n) (len_minus false l n).
Proof. intros A l n. unfold len_minus. destruct (n <=? length l); [apply lax_refl|apply lax_panics]. Qed.

Ltac step_with tac :=
  cbn zeta; first
    [ apply lax_refl | tac | apply lax_add | apply lax_sub | apply lax_assert | apply lax_len
    | apply lax_bind; [|intros ?] | apply lax_loop; intros ? | apply lax_for_each; intros ? ? | apply lax_catch
    | match goal with |- lax (match ?x with _ => _ end) _ => destruct x end ].

Lemma lax_calculate_index : forall r z, lax (narrow_calculate_index bits true r z) (narrow_calculate_index bits false r z).
Proof. intros r z. unfold narrow_calculate_index. repeat step_with fail. Qed.

Lemma lax_process_next : forall l r, lax (narrow_process_next bits true l r) (narrow_process_next bits false l r).
Proof. intros l r. unfold narrow_process_next, narrow_process_split. repeat step_with ltac:(apply lax_calculate_index). Qed.

Lemma lax_vtn_index : forall a b c, lax (narrow_parse_vtn_index bits true a b c) (narrow_parse_vtn_index bits false a b c).
Proof. intros a b c. unfold narrow_parse_vtn_index. repeat step_with ltac:(apply lax_process_next). Qed.

Lemma lax_vtn_indices : forall l a b c, lax (narrow_parse_vtn_indices bits true fuel l a b c) (narrow_parse_vtn_indices bits false fuel l a b c).
Proof. intros l a b c. unfold narrow_parse_vtn_indices. repeat step_with ltac:(apply lax_vtn_index). Qed.

Lemma lax_point : forall es a, lax (narrow_parse_point bits true fuel es a) (narrow_parse_point bits false fuel es a).
Proof. intros es a. unfold narrow_parse_point. repeat step_with ltac:(apply lax_calculate_index). Qed.

Lemma lax_line : forall es a b c, lax (narrow_parse_line bits true fuel es a b c) (narrow_parse_line bits false fuel es a b c).
Proof. intros es a b c. unfold narrow_parse_line. repeat step_with ltac:(first [apply lax_vtn_index|apply lax_vtn_indices]). Qed.

Lemma lax_face : forall es a b c, lax (narrow_parse_face bits true fuel es a b c) (narrow_parse_face bits false fuel es a b c).
Proof. intros es a b c. unfold narrow_parse_face, narrow_triangulate. repeat step_with ltac:(apply lax_vtn_indices). Qed.

Lemma lax_elements : forall es a b c, lax (narrow_parse_elements bits true fuel es a b c) (narrow_parse_elements bits false fuel es a b c).
Proof.
  intros es a b c. unfold narrow_parse_elements. repeat step_with ltac:(first [apply lax_point|apply lax_line|apply lax_face]).
Qed.

Lemma lax_groups : forall l, lax (narrow_parse_groups bits true fuel l) (narrow_parse_groups bits false fuel l).
Proof. intros l. unfold narrow_parse_groups, narrow_names_until_newline. repeat step_with fail. Qed.

Lemma lax_g : forall g, lax (narrow_parse_object_g bits true fuel g) (narrow_parse_object_g bits false fuel g).
Proof. intros g. unfold narrow_parse_object_g. repeat step_with ltac:(apply lax_groups). Qed.

Lemma lax_s : forall s, lax (narrow_parse_object_s bits true s) (narrow_parse_object_s bits false s).
Proof. intros s. unfold narrow_parse_object_s. repeat step_with fail. Qed.

Lemma lax_usemtl : forall m, lax (narrow_parse_object_usemtl bits true m) (narrow_parse_object_usemtl bits false m).
Proof. intros m. unfold narrow_parse_object_usemtl. repeat step_with fail. Qed.

Lemma lax_element : forall st, lax (narrow_parse_object_element bits true fuel st) (narrow_parse_object_element bits false fuel st).
Proof. intros st. unfold narrow_parse_object_element. repeat step_with ltac:(apply lax_elements). Qed.

Lemma lax_body : forall st, lax (narrow_parse_object_body bits true fuel st) (narrow_parse_object_body bits false fuel st).
Proof.
  intros st. unfold narrow_parse_object_body, narrow_parse_object_v, narrow_parse_object_vt, narrow_parse_object_vn.
  repeat step_with ltac:(first [apply lax_g|apply lax_s|apply lax_usemtl|apply lax_element]).
Qed.

Lemma lax_object : forall r, lax (narrow_parse_object bits true fuel r) (narrow_parse_object bits false fuel r).
Proof.
  intros r. unfold narrow_parse_object, parse_shape_entries. 
  repeat step_with ltac:(apply lax_body).
Qed.

Lemma lax_objset : lax (narrow_parse_objset bits true fuel) (narrow_parse_objset bits false fuel).
Proof.
  unfold narrow_parse_objset, narrow_parse_material_libraries, narrow_parse_objects, narrow_parse_material_library_line, narrow_names_until_newline.
  repeat step_with ltac:(apply lax_object).
Qed.

End Lax.

Lemma narrow_debug : forall bits input, (forall x, narrow_parse bits true input <> Panic x) ->
  narrow_parse bits true input = narrow_parse bits false input.
Proof.
  intros bits input H. unfold narrow_parse in *.
  destruct (lax_objset bits (fuel_for input) (parser_new input)) as [(x & q & E)|E].
  - exfalso. apply (H x). now rewrite E.
  - now rewrite E.
Qed.
