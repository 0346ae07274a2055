(** How often the parser of src/mtl.rs asks for the same token. *)
From Coq Require Import Lia.
From Verif Require Import MtlModel SourceProofs LogSpec LogProofs.
Local Open Scope list_scope.

Section Mtl.
Context (fuel : nat).
Notation MM := (M llist error_kind).
Notation lasts := (lasts 4).

Lemma lasts_next_string : forall P c, 1 <= c -> lasts P c (fun _ => 4) 0 (next_string : MM _).
Proof. intros. unfold next_string. lasts. Qed.
Hint Resolve lasts_next_string : last.

Lemma lasts_expect_tag : forall tag P c, 1 <= c -> lasts P c (fun _ => 4) 0 (expect_tag tag : MM _).
Proof. intros. unfold expect_tag. lasts. Qed.
Hint Resolve lasts_expect_tag : last.

Lemma lasts_parse_f64 : forall P c, 1 <= c -> lasts P c (fun _ => 4) 0 (parse_f64 : MM _).
Proof. intros. unfold parse_f64. lasts. Qed.
Hint Resolve lasts_parse_f64 : last.

Lemma lasts_parse_usize : forall P c, 1 <= c -> lasts P c (fun _ => 4) 0 (parse_usize : MM _).
Proof. intros. unfold parse_usize. lasts. Qed.
Hint Resolve lasts_parse_usize : last.

Lemma lasts_color : forall P c, 1 <= c -> lasts P c (fun _ => 4) 0 (parse_color : MM _).
Proof. intros. unfold parse_color. lasts. Qed.
Hint Resolve lasts_color : last.

Lemma lasts_map_name : forall P c, 1 <= c -> lasts P c (fun _ => 4) 0 (parse_map_name : MM _).
Proof. intros. unfold parse_map_name. lasts. Qed.
Hint Resolve lasts_map_name : last.

Lemma lasts_illum : forall P c, 1 <= c -> lasts P c (fun _ => 4) 0 (parse_illumination_model : MM _).
Proof.
  intros. unfold parse_illumination_model. do 2 last_step.
  destruct a0 as [|[[]|[]|]]; lasts.
Qed.
Hint Resolve lasts_illum : last.

Lemma lasts_newmtl : forall P c, 1 <= c -> lasts P c (fun _ => 4) 0 (parse_newmtl : MM _).
Proof. intros. unfold parse_newmtl. lasts. Qed.
Hint Resolve lasts_newmtl : last.

(** The nine texture maps look at the token again; it is still there. *)
Lemma lasts_map : forall tag (f : MM (option bytes)) t P,
  f = (t <- peek ;; if is_tok t tag then expect_tag (lit tag) ;;; parse_map_name else ret None) ->
  is_tok t tag = true ->
  lasts (fun ts => P ts /\ hd_error ts = t) 2 (fun _ => 4) 0 f.
Proof.
  intros tag f t P -> H. apply lasts_peek; [counts|]. intro t'.
  destruct (is_tok t' tag) eqn:E; [lasts|].
  apply lasts_absurd. intros ts [[_ <-] <-]. congruence.
Qed.

Lemma lasts_bump : forall t P, is_tok t "map_Bump" || is_tok t "bump" = true ->
  lasts (fun ts => P ts /\ hd_error ts = t) 2 (fun _ => 4) 0 (parse_map_bump : MM _).
Proof.
  intros t P H. unfold parse_map_bump. apply lasts_peek; [counts|]. intro t'.
  destruct (is_tok t' "map_Bump") eqn:E; [lasts|].
  destruct (is_tok t' "bump") eqn:E'; [lasts|].
  apply lasts_absurd. intros ts [[_ <-] <-]. rewrite E, E' in H. discriminate.
Qed.

Lemma lasts_body : forall m P, lasts P 3
  (fun s => match s with Continue _ => 3 | Break _ => 2 end) 0 (parse_material_body fuel m : MM _).
Proof.
  intros m P. unfold parse_material_body.
  unfold parse_ambient_component, parse_diffuse_component, parse_specular_component,
    parse_emissive_component, parse_dissolve_component, parse_specular_exponent,
    parse_optical_density.
  apply lasts_peek; [counts|]. intro t.
  do 8 (match goal with |- lasts _ _ _ _ (if ?x then _ else _) => destruct x; [solve [lasts]|] end).
  repeat match goal with
  | |- lasts _ _ _ _ (if ?x then _ else _) =>
      let E := fresh in destruct x eqn:E;
      [eapply lasts_bind;
         [first [apply lasts_bump; exact E | eapply lasts_map; [reflexivity|exact E]]
         |intro; solve [lasts]]|]
  end.
  lasts.
Qed.

Lemma lasts_material : forall P c, 1 <= c -> lasts P c (fun _ => 2) 0 (parse_material fuel : MM _).
Proof.
  intros P c H. unfold parse_material. do 2 last_step.
  apply lasts_loop. intro m. eapply lasts_weaken; [apply lasts_body with (P := any)|auto|auto|intros []; cbn; lia|auto].
Qed.
Hint Resolve lasts_material : last.

Theorem lasts_mtlset : forall P, lasts P 4 (fun _ => 0) 0 (parse_mtlset fuel : MM _).
Proof.
  intro P. unfold parse_mtlset. eapply lasts_bind with (d := fun _ => 2).
  { eapply lasts_call with (d := fun _ => 3) (x := 0); [apply lasts_skip with (c := 4); lia|intros; lia|lia]. }
  intros []. eapply lasts_bind with (d := fun _ => 1); [|intro; lasts].
  apply lasts_loop. intro l. lasts.
Qed.

End Mtl.
