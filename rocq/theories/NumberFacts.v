(** Lemmas for PropNumber.v. *)
From Coq Require Import Lra Floats.SpecFloat.
From Verif Require Import ObjModel IndexSpec RustFmt FloatSpec NumberProofs FloatProofs FmtProofs.
Local Open Scope char_scope.
Local Open Scope list_scope.

(** * Indices *)

Lemma get_some : forall ob i t, get_vtn_triple ob i = Some t <->
  nth_error (vertex_set ob) (index_vertex i) = Some (triple_vertex t) /\
  entry (texture_vertex_set ob) (index_texture i) (triple_texture t) /\
  entry (normal_vertex_set ob) (index_normal i) (triple_normal t).
Proof.
  intros ob i t.
  destruct i; unfold get_vtn_triple; cbn [index_vertex index_texture index_normal];
    repeat match goal with |- context [nth_error ?l ?k] => destruct (nth_error l k) eqn:?E end;
    destruct t; cbn [triple_vertex triple_texture triple_normal entry]; split; intros H;
    try discriminate H; try (injection H; intros; subst); try tauto;
    try (destruct H as (H1 & H2 & H3)); repeat split; congruence.
Qed.

Lemma get_none : forall ob i, get_vtn_triple ob i <> None <->
  index_vertex i < List.length (vertex_set ob) /\ below (texture_vertex_set ob) (index_texture i) /\
  below (normal_vertex_set ob) (index_normal i).
Proof.
  intros ob i. unfold below.
  destruct i; unfold get_vtn_triple; cbn [index_vertex index_texture index_normal];
    repeat match goal with |- context [nth_error ?l ?k] =>
      pose proof (nth_error_Some l k); pose proof (nth_error_None l k); destruct (nth_error l k) end;
    split; intros HH; repeat split; intros; try discriminate; try congruence;
    repeat match goal with
    | H : Some _ = Some _ |- _ => injection H; clear H; intros; subst
    | H : _ <-> _ |- _ => destruct H end;
    try (match goal with H : Some _ <> None -> ?g |- ?g => apply H; discriminate end);
    destruct HH as (H11 & H12 & H13);
    repeat match goal with
    | H : forall k, Some ?x = Some k -> _ |- _ => specialize (H x eq_refl) end; try lia;
    repeat match goal with H : None = None -> _ |- _ => specialize (H eq_refl) end; lia.
Qed.

Lemma same_type : forall a b, has_same_type_as a b = true <-> same_form a b.
Proof.
  intros a b. unfold same_form.
  destruct a, b; cbn; split; intros H; try discriminate H; try reflexivity; try tauto;
    try (split; split; intros; congruence); destruct H as [[H1 H2] [H3 H4]];
    try discriminate (H1 eq_refl); try discriminate (H2 eq_refl); try discriminate (H3 eq_refl); discriminate (H4 eq_refl).
Qed.

(** * A number with a long exponent *)

Definition long_zeros : nat := N.to_nat 65935.
Definition long_number : bytes := lit "0." ++ (repeat "0" long_zeros ++ ["1"]) ++ lit "e655360".

Lemma long_text : decimal_text long_number false 1 (S long_zeros) 655360.
Proof.
  exists [], (["0"] ++ "." :: repeat "0" long_zeros ++ ["1"]), (lit "e655360"). split; [|split; [constructor|split]].
  - unfold long_number. cbn [app lit list_ascii_of_string]. now rewrite <- app_assoc.
  - replace (S long_zeros) with (List.length (repeat "0" long_zeros ++ ["1"])) by (rewrite app_length, repeat_length; cbn; lia).
    constructor; [discriminate|]. cbn [app]. apply digits_zero_before, digits_zeros_before. change ["1"] with ([] ++ ["1"]).
    change 1%N with (10 * 0 + 1)%N. constructor; constructor.
  - apply (exponent_some "e" [] false (lit "655360") 655360); [auto|constructor|discriminate|]. now apply digits_val_digits.
Qed.

Lemma long_read : parse_f64 long_number = Some (S754_zero false).
Proof. vm_compute. reflexivity. Qed.

Lemma long_true : forall x, nearest false (decimal false 1 (655360 - Z.of_nat (S long_zeros))) x -> x = S754_infinity false.
Proof.
  intros x (_ & _ & _ & H). apply H. unfold decimal. cbn [signed]. rewrite Rmult_1_l.
  eapply Rle_trans; [exact powerRZ_2_400|].
  rewrite Rabs_pos_eq by (apply powerRZ_le; lra). apply powerRZ_10_le. unfold long_zeros. lia.
Qed.

Lemma long_exponent : exists s neg m k e x,
  decimal_text s neg m k e /\ parse_f64 s = Some x /\ ~ nearest neg (decimal neg m (e - Z.of_nat k)) x.
Proof.
  exists long_number, false, 1%N, (S long_zeros), 655360%Z, (S754_zero false).
  split; [exact long_text|]. split; [exact long_read|]. intros H. apply long_true in H. discriminate.
Qed.

Lemma same_type_equivalence :
  (forall a, has_same_type_as a a = true) /\
  (forall a b, has_same_type_as a b = has_same_type_as b a) /\
  (forall a b c, has_same_type_as a b = true -> has_same_type_as b c = true -> has_same_type_as a c = true).
Proof.
  split; [intros []; reflexivity|]. split; [intros [] []; reflexivity|].
  intros [] [] []; cbn; congruence.
Qed.
