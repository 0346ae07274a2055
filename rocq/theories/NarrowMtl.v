(** Words of another size and src/mtl.rs: C81. *)
From Verif Require Import NarrowMtlModel NarrowSpec FmtProofs.
From Verif Require NumberProofs.
Import MtlTypes MtlModel.
Local Open Scope list_scope.

Section Related.
Context {S : token_source} (bits : Z) (Hbits : (8 <= bits)%Z) (fuel : nat).
Local Notation M := (M S error_kind).

Definition related {A} (r' r : outcome (parse_error error_kind) A * parser S) : Prop :=
  r' = r \/ exists e e' q, r' = (Err e, q) /\ r = (Err e', q) /\ illumination_too_large bits e e'.

Definition close {A} (m' m : M A) : Prop := forall p, related (m' p) (m p).

Lemma close_refl : forall A (m : M A), close m m.
Proof. intros A m p. now left. Qed.

Lemma close_bind : forall A B (m' m : M A) (f' f : A -> M B),
  close m' m -> (forall a, close (f' a) (f a)) -> close (bind m' f') (bind m f).
Proof.
  intros A B m' m f' f Hm Hf p. unfold bind. destruct (Hm p) as [E|(e & e' & q & E1 & E2 & H)].
  - rewrite E. destruct (m p) as [[a|e|x|] q]; [apply Hf|now left|now left|now left].
  - rewrite E1, E2. right. eauto 7.
Qed.

Lemma close_loop : forall A B (body' body : A -> M (step A B)) n a,
  (forall a, close (body' a) (body a)) -> close (loop n body' a) (loop n body a).
Proof.
  intros A B body' body n. induction n as [|n IH]; intros a H; cbn; [apply close_refl|].
  apply close_bind; auto. intros [a'|b]; [now apply IH|apply close_refl].
Qed.

Lemma close_illumination : close (narrow_parse_illumination_model bits) parse_illumination_model.
Proof.
  apply close_bind; [apply close_refl|]. intros _ p.
  unfold narrow_parse_usize, parse_usize. unfold bind. destruct (next_string p) as [[st|e|x|] q]; try (now left).
  unfold narrow_usize. destruct (RustStd.parse_usize st) as [n|] eqn:E; [|now left].
  destruct (Z.of_N n <=? word_max bits)%Z eqn:L; [now left|]. apply Z.leb_gt in L. unfold word_max in L.
  assert (2 ^ 8 <= 2 ^ bits)%Z by (apply Z.pow_le_mono_r; lia).
  right. unfold ret.
  exists (mkParseError (line_number q) ExpectedInteger (lit "Expected integer but got " ++ st)).
  exists (mkParseError (line_number q) UnknownIlluminationModel (lit "Unknown illumination model: " ++ show_N n ++ lit ".")).
  exists q. split; [reflexivity|]. split.
  - destruct n as [|[n|[n|n|]|]]; try reflexivity; cbn in L; lia.
  - split; [reflexivity|]. exists st, n. cbn. repeat split; auto.
Qed.

Lemma close_body : forall m, close (narrow_parse_material_body bits fuel m) (parse_material_body fuel m).
Proof.
  intro m. unfold narrow_parse_material_body, parse_material_body.
  apply close_bind; [apply close_refl|]. intro t. cbv zeta.
  repeat match goal with
  | |- close ?x ?x => apply close_refl
  | |- close (bind (narrow_parse_illumination_model _) _) _ => apply close_bind; [apply close_illumination|intro; apply close_refl]
  | |- close (if ?x then _ else _) _ => destruct x
  | |- close (match ?x with _ => _ end) _ => destruct x
  end.
Qed.

Lemma close_material : close (narrow_parse_material bits fuel) (parse_material fuel).
Proof.
  apply close_bind; [apply close_refl|]. intro nm. cbv zeta. apply close_bind; [apply close_refl|]. intros _.
  apply close_loop. apply close_body.
Qed.

Lemma close_mtlset : close (narrow_parse_mtlset bits fuel) (parse_mtlset fuel).
Proof.
  apply close_bind; [apply close_refl|]. intros _. apply close_bind; [|intro; apply close_refl].
  apply close_loop. intro ms. apply close_bind; [apply close_refl|]. intro t. destruct (is_tok t "newmtl"); [|apply close_refl].
  apply close_bind; [apply close_material|intro; apply close_refl].
Qed.
(** The smaller platform does not name a number that is too large for it. *)
Definition modest {A} (m : M A) : Prop := forall p e q, m p = (Err e, q) -> ~ names_too_large bits e.

Lemma modest_ret : forall A (a : A), modest (ret a).
Proof. intros A a p e q E. discriminate E. Qed.

Lemma modest_error : forall A k msg, k <> UnknownIlluminationModel -> modest (A := A) (error k msg).
Proof. intros A k msg H p e q E (n & _ & K & _). injection E as <- _. exact (H K). Qed.

Lemma modest_peek : modest peek.
Proof. intros p e q. unfold peek. destruct (ts_peek S (lexer_state p)). discriminate. Qed.

Lemma modest_next : modest next.
Proof. intros p e q. unfold next. destruct (ts_next S (lexer_state p)). discriminate. Qed.

Lemma modest_bind : forall A B (m : M A) (f : A -> M B), modest m -> (forall a, modest (f a)) -> modest (bind m f).
Proof.
  intros A B m f Hm Hf p e q. unfold bind. specialize (Hm p). destruct (m p) as [[a|e'|x|] p']; try discriminate; [apply Hf|].
  intro E. injection E as <- <-. now apply (Hm e' p').
Qed.

Lemma modest_loop : forall A B (body : A -> M (step A B)) n a, (forall a, modest (body a)) -> modest (loop n body a).
Proof.
  intros A B body n. induction n as [|n IH]; intros a H; cbn; [intros p e q E; discriminate E|].
  apply modest_bind; auto. intros [a'|b]; [now apply IH|apply modest_ret].
Qed.

Ltac modest_walk :=
  repeat (cbn zeta; first
    [ assumption | apply modest_ret | apply modest_error; discriminate | apply modest_peek | apply modest_next
    | apply modest_bind; [|intros ?] | apply modest_loop; intros ?
    | match goal with |- modest (match ?x with _ => _ end) => destruct x end ]).

Lemma show_N_same : forall a b, show_N a = show_N b -> a = b.
Proof.
  intros a b E. pose proof (show_N_digits a) as Ha. pose proof (show_N_digits b) as Hb. rewrite E in Ha.
  apply NumberProofs.digits_val_digits in Ha, Hb. congruence.
Qed.

Lemma modest_illumination : modest (narrow_parse_illumination_model bits).
Proof.
  unfold narrow_parse_illumination_model. apply modest_bind; [unfold expect_tag, next_string; modest_walk|]. intros _ p e q.
  unfold narrow_parse_usize, bind. destruct (next_string p) as [[st|e'|x|] p'] eqn:En.
  - unfold narrow_usize. destruct (RustStd.parse_usize st) as [n|]; [|intro E; injection E as <- <-; intros (k & _ & K & _); discriminate K].
    destruct (Z.of_N n <=? word_max bits)%Z eqn:L; [|intro E; injection E as <- <-; intros (k & _ & K & _); discriminate K].
    apply Z.leb_le in L. unfold ret.
    assert (K : forall e q, error (S := S) (A := illumination) UnknownIlluminationModel (lit "Unknown illumination model: " ++ show_N n ++ lit ".") p' = (Err e, q) -> ~ names_too_large bits e).
    { intros e1 q1 E (k & K1 & _ & K2). injection E as <- _. cbn in K2. injection K2 as K2. apply app_inv_tail in K2. apply show_N_same in K2. subst k.
      unfold largest_usize in K1. unfold word_max in L. lia. }
    destruct n as [|[n|[n|n|]|]]; try discriminate; apply K.
  - intro E. injection E as <- <-. assert (Q : modest next_string) by (unfold next_string; modest_walk). now apply (Q p e' p').
  - discriminate.
  - discriminate.
Qed.

Lemma modest_mtlset : modest (narrow_parse_mtlset bits fuel).
Proof.
  assert (Q := modest_illumination).
  unfold narrow_parse_mtlset, narrow_parse_material, narrow_parse_material_body, parse_newmtl,
    parse_ambient_component, parse_diffuse_component, parse_specular_component,
    parse_emissive_component, parse_dissolve_component, parse_specular_exponent,
    parse_optical_density, parse_map_ambient, parse_map_diffuse,
    parse_map_specular, parse_map_emissive, parse_map_bump, parse_map_displacement,
    parse_map_dissolve, parse_map_decal, parse_map_specular_exponent, parse_map_name, parse_color,
    MtlModel.parse_f64, MtlModel.expect_tag, MtlModel.next_string,
    skip_zero_or_more_newlines, advance.
  modest_walk.
Qed.

End Related.

Lemma narrow_mtl : forall bits input, (8 <= bits)%Z ->
  narrow_parse_mtl bits input = MtlModel.parse input \/
  exists e e', narrow_parse_mtl bits input = Err e /\ MtlModel.parse input = Err e' /\ illumination_too_large bits e e'.
Proof.
  intros bits input Hb. unfold narrow_parse_mtl, MtlModel.parse.
  destruct (close_mtlset bits Hb (fuel_for input) (parser_new input)) as [E|(e & e' & q & E1 & E2 & H)].
  - left. now rewrite E.
  - right. exists e, e'. rewrite E1, E2. auto.
Qed.

Lemma narrow_mtl_ok : forall bits input set, (8 <= bits)%Z ->
  narrow_parse_mtl bits input = Ok set <-> MtlModel.parse input = Ok set.
Proof.
  intros bits input set Hb. destruct (narrow_mtl bits input Hb) as [E|(e & e' & E1 & E2 & _)].
  - now rewrite E.
  - rewrite E1, E2. split; discriminate.
Qed.

Lemma narrow_mtl_error : forall bits input e, narrow_parse_mtl bits input = Err e -> ~ names_too_large bits e.
Proof.
  intros bits input e E. unfold narrow_parse_mtl in E.
  destruct (narrow_parse_mtlset bits (fuel_for input) (parser_new input)) as [o q] eqn:E'. cbn in E. subst o.
  now apply (modest_mtlset bits (fuel_for input) (parser_new input) e q).
Qed.
