(** MTL texts with other data, and with statements left out. *)
From Verif Require Import MtlModel MtlSpec MtlRewriteSpec MtlTop MtlFacts.
Local Open Scope list_scope.

Section Transform.
  Context (T : transform) (HT : keeps_defaults T).

  Lemma last_map {A} (given : setting -> option A) (g : A -> A) :
    (forall s, given (map_setting T s) = option_map g (given s)) ->
    forall ss, last_of given (map (map_setting T) ss) = option_map g (last_of given ss).
  Proof.
    intros H ss. induction ss as [|s ss IH]; cbn; auto. rewrite IH. destruct (last_of given ss); cbn; auto.
  Qed.

  Lemma last_color : forall f ss, last_of (given_color f) (map (map_setting T) ss) = option_map (on_color T f) (last_of (given_color f) ss).
  Proof. intros f. apply last_map. intros [[] c|[] x|i|[] n]; destruct f; reflexivity. Qed.

  Lemma last_number : forall f ss, last_of (given_number f) (map (map_setting T) ss) = option_map (on_number T f) (last_of (given_number f) ss).
  Proof. intros f. apply last_map. intros [[] c|[] x|i|[] n]; destruct f; reflexivity. Qed.

  Lemma last_illum : forall ss, last_of given_illum (map (map_setting T) ss) = option_map (on_illum T) (last_of given_illum ss).
  Proof. apply last_map. intros [[] c|[] x|i|[] n]; reflexivity. Qed.

  Lemma last_name : forall f ss, last_of (given_map f) (map (map_setting T) ss) = option_map (on_map T f) (last_of (given_map f) ss).
  Proof. intros f. apply last_map. intros [[] c|[] x|i|[] n]; destruct f; reflexivity. Qed.

  Lemma or_map {A} (g : A -> A) (o : option A) (a : A) : g a = a -> or_else (option_map g o) a = g (or_else o a).
  Proof. intros H. destruct o; cbn; auto. Qed.

  Lemma material_map : forall m, material_of (on_name T (fst m), map (map_setting T) (snd m)) = map_material T (material_of m).
  Proof.
    intros [n ss]. destruct HT as (H1 & H2 & H3 & H4). unfold material_of, map_material. cbn [fst snd].
    rewrite !last_color, !last_number, last_illum, !last_name, !or_map; auto.
  Qed.

  Lemma file_map : forall f, file_means (map_file T f) = map_set T (file_means f).
  Proof.
    intros f. unfold file_means, map_set, map_file. cbn. f_equal. rewrite !map_map. apply map_ext. intros [n ss]. apply (material_map (n, ss)).
  Qed.

  Theorem data_replaced : forall input f set input', text_says input f -> parse input = Ok set -> text_says input' (map_file T f) ->
    parse input' = Ok (map_set T set).
  Proof.
    intros input f set input' (ts & K & S) P (ts' & K' & S'). apply parse_ok_iff in P. destruct P as (ts1 & f1 & K1 & S1 & ->).
    apply parse_ok_iff. exists ts', (map_file T f). split; [exact K'|]. split; [exact S'|].
    rewrite (text_one input f1 f) by (eexists; eauto). symmetry. apply file_map.
  Qed.
End Transform.

(** * A statement that is overwritten *)

Lemma last_app {A} (given : setting -> option A) a b :
  last_of given (a ++ b) = match last_of given b with Some x => Some x | None => last_of given a end.
Proof. induction a as [|s a IH]; cbn; [destruct (last_of given b); auto|]. rewrite IH. destruct (last_of given b); auto. Qed.

Lemma overwritten {A} (given : setting -> option A) s b s' c :
  (given s' = None -> given s = None) -> last_of given (s :: b ++ s' :: c) = last_of given (b ++ s' :: c).
Proof.
  intros H. cbn. destruct (last_of given (b ++ s' :: c)) eqn:E; auto. rewrite last_app in E. cbn in E.
  destruct (last_of given c); [discriminate|]. destruct (given s'); [discriminate|auto].
Qed.

Lemma material_overwritten : forall n a s b s' c, same_field s s' -> material_of (n, a ++ s :: b ++ s' :: c) = material_of (n, a ++ b ++ s' :: c).
Proof.
  intros n a s b s' c H.
  assert (K : forall A (given : setting -> option A), (given s' = None -> given s = None) ->
    last_of given (a ++ s :: b ++ s' :: c) = last_of given (a ++ b ++ s' :: c)).
  { intros A given G. rewrite !(last_app _ a). now rewrite (overwritten given s b s' c G). }
  assert (K1 : forall f, given_color f s' = None -> given_color f s = None).
  { intros f. destruct s as [f1 c1|f1 x1|i1|f1 m1], s' as [f2 c2|f2 x2|i2|f2 m2]; cbn in H; try contradiction; try subst f1; try destruct f2; destruct f; cbn; congruence. }
  assert (K2 : forall f, given_number f s' = None -> given_number f s = None).
  { intros f. destruct s as [f1 c1|f1 x1|i1|f1 m1], s' as [f2 c2|f2 x2|i2|f2 m2]; cbn in H; try contradiction; try subst f1; try destruct f2; destruct f; cbn; congruence. }
  assert (K3 : given_illum s' = None -> given_illum s = None).
  { destruct s as [f1 c1|f1 x1|i1|f1 m1], s' as [f2 c2|f2 x2|i2|f2 m2]; cbn in H; try contradiction; cbn; congruence. }
  assert (K4 : forall f, given_map f s' = None -> given_map f s = None).
  { intros f. destruct s as [f1 c1|f1 x1|i1|f1 m1], s' as [f2 c2|f2 x2|i2|f2 m2]; cbn in H; try contradiction; try subst f1; try destruct f2; destruct f; cbn; congruence. }
  unfold material_of. cbn [fst snd]. rewrite !K; auto.
Qed.

Theorem overwritten_removed : forall input input' set before n a s b s' c after, same_field s s' ->
  text_says input (before ++ (n, a ++ s :: b ++ s' :: c) :: after) ->
  text_says input' (before ++ (n, a ++ b ++ s' :: c) :: after) ->
  parse input = Ok set <-> parse input' = Ok set.
Proof.
  intros input input' set before n a s b s' c after H Hs Hs'.
  assert (P : forall i f, text_says i f -> parse i = Ok (file_means f)).
  { intros i f (ts & K & S). apply parse_ok_iff. eauto. }
  rewrite (P _ _ Hs), (P _ _ Hs').
  assert (E : file_means (before ++ (n, a ++ s :: b ++ s' :: c) :: after) = file_means (before ++ (n, a ++ b ++ s' :: c) :: after)).
  { unfold file_means. f_equal. rewrite !map_app. cbn [map]. now rewrite material_overwritten. }
  rewrite E. reflexivity.
Qed.
