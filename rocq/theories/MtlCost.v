(** The number of tokens the parser of src/mtl.rs asks for. *)
From Verif Require Import MtlModel SourceProofs CountSpec CostProofs.
Local Open Scope list_scope.

Section Mtl.
Context (fuel : nat).
Notation MM := (M clist error_kind).

Lemma pays_next_string : forall P, pays P 1 (fun _ => rate) (next_string : MM _).
Proof. intro. unfold next_string. pays. Qed.
Hint Resolve pays_next_string : pay.

Lemma pays_expect_tag : forall tag P, pays P 1 (fun _ => rate) (expect_tag tag : MM _).
Proof. intros. unfold expect_tag. pays. Qed.
Hint Resolve pays_expect_tag : pay.

Lemma pays_parse_f64 : forall P, pays P 1 (fun _ => rate) (parse_f64 : MM _).
Proof. intro. unfold parse_f64. pays. Qed.
Hint Resolve pays_parse_f64 : pay.

Lemma pays_parse_usize : forall P, pays P 1 (fun _ => rate) (parse_usize : MM _).
Proof. intro. unfold parse_usize. pays. Qed.
Hint Resolve pays_parse_usize : pay.

Lemma pays_color : forall P, pays P 1 (fun _ => rate) (parse_color : MM _).
Proof. intro. unfold parse_color. pays. Qed.
Hint Resolve pays_color : pay.

Lemma pays_map_name : forall P, pays P 1 (fun _ => rate) (parse_map_name : MM _).
Proof. intro. unfold parse_map_name. pays. Qed.
Hint Resolve pays_map_name : pay.

Lemma pays_illum : forall P, pays P 1 (fun _ => rate) (parse_illumination_model : MM _).
Proof.
  intro. unfold parse_illumination_model. do 2 pay_step.
  destruct a0 as [|[[]|[]|]]; pays.
Qed.
Hint Resolve pays_illum : pay.

Lemma pays_newmtl : forall P, pays P 1 (fun _ => rate) (parse_newmtl : MM _).
Proof. intro. unfold parse_newmtl. pays. Qed.
Hint Resolve pays_newmtl : pay.

(** The nine texture maps look at the token again; it is still there. *)
Lemma pays_map : forall tag (f : MM (option bytes)) t P,
  f = (t <- peek ;; if is_tok t tag then expect_tag (lit tag) ;;; parse_map_name else ret None) ->
  is_tok t tag = true ->
  pays (fun ts => P ts /\ hd_error ts = t) 2 (fun _ => 2 * rate - 1) f.
Proof.
  intros tag f t P -> H. apply pays_peek; [credits|]. intro t'.
  destruct (is_tok t' tag) eqn:E; [pays|].
  apply pays_absurd. intros ts [[_ <-] <-]. congruence.
Qed.

Lemma pays_bump : forall t P, is_tok t "map_Bump" || is_tok t "bump" = true ->
  pays (fun ts => P ts /\ hd_error ts = t) 2 (fun _ => 2 * rate - 1) (parse_map_bump : MM _).
Proof.
  intros t P H. unfold parse_map_bump. apply pays_peek; [credits|]. intro t'.
  destruct (is_tok t' "map_Bump") eqn:E; [pays|].
  destruct (is_tok t' "bump") eqn:E'; [pays|].
  apply pays_absurd. intros ts [[_ <-] <-]. rewrite E, E' in H. discriminate.
Qed.

Lemma pays_body : forall m P, pays P 3
  (fun s => match s with Continue _ => 6 | Break _ => 2 end) (parse_material_body fuel m : MM _).
Proof.
  intros m P. unfold parse_material_body.
  unfold parse_ambient_component, parse_diffuse_component, parse_specular_component,
    parse_emissive_component, parse_dissolve_component, parse_specular_exponent,
    parse_optical_density.
  apply pays_peek; [credits|]. intro t.
  do 8 (match goal with |- pays _ _ _ (if ?x then _ else _) => destruct x; [solve [pays]|] end).
  repeat match goal with
  | |- pays _ _ _ (if ?x then _ else _) =>
      let E := fresh in destruct x eqn:E;
      [eapply pays_bind;
         [first [apply pays_bump; exact E | eapply pays_map; [reflexivity|exact E]]
         |credits|intro; solve [pays]]|]
  end.
  pays.
Qed.

Lemma pays_material : forall P, pays P 1 (fun _ => 6) (parse_material fuel : MM _).
Proof.
  intro P. unfold parse_material. do 2 pay_step.
  apply pays_loop. intro m.
  eapply pays_weaken with (c := 3 + 4) (Q := any); [apply pays_frame; apply pays_body|auto|credits|].
  intros []; credits.
Qed.
Hint Resolve pays_material : pay.

Lemma pays_mtlset : forall P, pays P 4 (fun _ => 0) (parse_mtlset fuel : MM _).
Proof.
  intro P. unfold parse_mtlset. pay_step.
  eapply pays_bind with (c0 := 3) (d0 := fun _ => 1); [|credits|intro; pays].
  apply pays_loop. intro l. pays.
Qed.

End Mtl.
