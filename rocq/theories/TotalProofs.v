(** Termination, absence of panics in mtl.rs, and error lines. *)
From Verif Require Import ObjModel MtlModel TokenSpec LexerProofs RelProofs SourceProofs ConsumeProofs.
Local Open Scope list_scope.

(** ** mtl.rs has no panicking operation *)

Definition calm {S K A} (m : M S K A) : Prop := forall p x, fst (m p) <> Panic x.

Section Calm.
Context {S : token_source}.

Lemma calm_ret : forall K A (a : A), calm (S := S) (K := K) (ret a).
Proof. intros K A a p x. discriminate. Qed.
Lemma calm_error : forall K A (k : K) msg, calm (S := S) (A := A) (error k msg).
Proof. intros K A k msg p x. discriminate. Qed.
Lemma calm_peek : forall K, calm (S := S) (K := K) peek.
Proof. intros K p x. unfold peek. destruct (ts_peek S (lexer_state p)). discriminate. Qed.
Lemma calm_next : forall K, calm (S := S) (K := K) next.
Proof. intros K p x. unfold next. destruct (ts_next S (lexer_state p)). discriminate. Qed.
Lemma calm_bind : forall K A B (m : M S K A) (f : A -> M S K B),
  calm m -> (forall a, calm (f a)) -> calm (bind m f).
Proof.
  intros K A B m f Hm Hf p x. specialize (Hm p x). unfold bind.
  destruct (m p) as [[a|e|y|] p']; cbn in *; try discriminate.
  - apply Hf.
  - intro E. inversion E; subst. now apply Hm.
Qed.
Lemma calm_loop : forall K A B (body : A -> M S K (step A B)) n a,
  (forall a, calm (body a)) -> calm (loop n body a).
Proof.
  intros K A B body n. induction n as [|n IH]; intros a Hb; cbn.
  - intros p x. discriminate.
  - apply calm_bind; auto. intros [a'|b]; [now apply IH|apply calm_ret].
Qed.

Ltac calm_walk :=
  repeat (cbn zeta; first
    [ apply calm_ret | apply calm_error | apply calm_peek | apply calm_next
    | apply calm_bind; [|intros ?] | apply calm_loop; intros ?
    | match goal with |- calm (match ?x with _ => _ end) => destruct x end ]).

Lemma calm_parse_mtlset : forall fuel, calm (S := S) (parse_mtlset fuel).
Proof.
  intros fuel. unfold parse_mtlset, parse_material, parse_material_body, parse_newmtl,
    parse_ambient_component, parse_diffuse_component, parse_specular_component,
    parse_emissive_component, parse_dissolve_component, parse_specular_exponent,
    parse_optical_density, parse_illumination_model, parse_map_ambient, parse_map_diffuse,
    parse_map_specular, parse_map_emissive, parse_map_bump, parse_map_displacement,
    parse_map_dissolve, parse_map_decal, parse_map_specular_exponent, parse_map_name, parse_color,
    MtlModel.parse_f64, MtlModel.parse_usize, MtlModel.expect_tag, MtlModel.next_string,
    skip_zero_or_more_newlines, advance.
  calm_walk.
Qed.

End Calm.

(** ** Termination *)

Lemma parse_tokens_total : forall dbg fuel ts, length ts < fuel ->
  parse_tokens dbg fuel ts <> Diverge.
Proof.
  intros dbg fuel ts Hl. destruct (cons_parse_objset fuel dbg always 1 ts Hl I) as (pre & _ & _ & H).
  unfold parse_tokens. intro E. now rewrite E in H.
Qed.

Lemma mtl_parse_tokens_total : forall fuel ts, length ts < fuel ->
  mtl_parse_tokens fuel ts <> Diverge.
Proof.
  intros fuel ts Hl. destruct (cons_parse_mtlset fuel always 1 ts Hl I) as (pre & _ & _ & H).
  unfold mtl_parse_tokens. intro E. now rewrite E in H.
Qed.

Lemma parse_new_lex : forall dbg fuel input,
  fst (parse_objset dbg fuel (parser_new input)) = parse_tokens dbg fuel (lex input).
Proof. intros. apply parse_objset_lex. apply related_new. Qed.

Lemma mtl_parse_new_lex : forall fuel input,
  fst (parse_mtlset fuel (parser_new input)) = mtl_parse_tokens fuel (lex input).
Proof. intros. apply parse_mtlset_lex. apply related_new. Qed.

(** The result does not depend on the fuel. *)
Lemma parse_tokens_fuel : forall dbg f1 f2 ts, length ts < f1 -> length ts < f2 ->
  parse_tokens dbg f1 ts = parse_tokens dbg f2 ts.
Proof.
  intros dbg f1 f2 ts H1 H2. unfold parse_tokens.
  destruct (Nat.le_ge_cases f1 f2).
  - symmetry. apply parse_objset_fuel; auto. now apply parse_tokens_total.
  - apply parse_objset_fuel; auto. now apply parse_tokens_total.
Qed.

Lemma mtl_parse_tokens_fuel : forall f1 f2 ts, length ts < f1 -> length ts < f2 ->
  mtl_parse_tokens f1 ts = mtl_parse_tokens f2 ts.
Proof.
  intros f1 f2 ts H1 H2. unfold mtl_parse_tokens.
  destruct (Nat.le_ge_cases f1 f2).
  - symmetry. apply parse_mtlset_fuel; auto. now apply mtl_parse_tokens_total.
  - apply parse_mtlset_fuel; auto. now apply mtl_parse_tokens_total.
Qed.

Lemma lex_fuel : forall input, length (lex input) < S (length input).
Proof. intros. pose proof (lex_length input). lia. Qed.

Lemma obj_terminates : forall dbg input ts fuel,
  tokenizes input ts -> length ts < fuel ->
  fst (parse_objset dbg fuel (parser_new input)) = ObjModel.parse dbg input /\
  ObjModel.parse dbg input <> Diverge.
Proof.
  intros dbg input ts fuel Ht Hl. apply tokenizes_iff in Ht. subst ts.
  rewrite parse_new_lex, parse_lex. unfold ObjModel.fuel_for.
  pose proof (lex_fuel input). split.
  - now apply parse_tokens_fuel.
  - now apply parse_tokens_total.
Qed.

Lemma mtl_terminates : forall input ts fuel,
  tokenizes input ts -> length ts < fuel ->
  fst (parse_mtlset fuel (parser_new input)) = MtlModel.parse input /\
  ((exists set, MtlModel.parse input = Ok set) \/ (exists e, MtlModel.parse input = Err e)).
Proof.
  intros input ts fuel Ht Hl. apply tokenizes_iff in Ht. subst ts.
  pose proof (lex_fuel input) as Hf. split.
  - rewrite mtl_parse_new_lex, mtl_parse_lex. now apply mtl_parse_tokens_fuel.
  - destruct (MtlModel.parse input) as [s|e|x|] eqn:E; eauto.
    + exfalso. eapply calm_parse_mtlset. exact E.
    + exfalso. rewrite mtl_parse_lex in E. eapply mtl_parse_tokens_total; [|exact E]. exact Hf.
Qed.

(** Equal token sequences give equal results. *)
Lemma parse_same_tokens : forall dbg a b, lex a = lex b ->
  ObjModel.parse dbg a = ObjModel.parse dbg b.
Proof.
  intros dbg a b E. rewrite !parse_lex, E. apply parse_tokens_fuel; unfold ObjModel.fuel_for.
  - rewrite <- E. apply lex_fuel.
  - apply lex_fuel.
Qed.

Lemma mtl_parse_same_tokens : forall a b, lex a = lex b -> MtlModel.parse a = MtlModel.parse b.
Proof.
  intros a b E. rewrite !mtl_parse_lex, E. apply mtl_parse_tokens_fuel; unfold MtlModel.fuel_for.
  - rewrite <- E. apply lex_fuel.
  - apply lex_fuel.
Qed.
