(** Different texts with the same meaning (RewriteSpec.v). *)
From Verif Require Import ObjModel ObjErrorSpec ObjView RewriteSpec LexerProofs ObjTop ObjMeaning ObjReach ObjUnique ObjFacts ObjMore
  ObjDebug ObjProps.
Local Open Scope list_scope.

(** * From meanings to the parser *)

Lemma parse_means : forall input f, fits input -> says input f -> Forall drawable (file_objects f) ->
  forall dbg, parse dbg input = Ok (file_means f) \/
    (dbg = true /\ exists ts, tokenizes input ts /\ overflows_file ts).
Proof.
  intros input f Hf Hs Hd dbg.
  assert (K : parse false input = Ok (file_means f)) by (apply parse_says_iff; eauto).
  destruct dbg; [|now left]. destruct (parse_debug input Hf) as [[Ho _]|[_ E]].
  - right. split; auto. exists (lex input). split; auto. apply lex_tokenizes.
  - left. congruence.
Qed.

(** Replacing the statements of one object. *)
Lemma replaced : forall n ss ss',
  (drawable (n, ss) -> drawable (n, ss')) -> (forall base, count_all base ss' = count_all base ss) ->
  (forall base, object_of base n ss' = object_of base n ss) ->
  forall libs os os' dbg input set input', fits input -> fits input' ->
  says input (mkObjFile libs (os ++ (n, ss) :: os')) -> says input' (mkObjFile libs (os ++ (n, ss') :: os')) ->
  parse dbg input = Ok set ->
  forall dbg', parse dbg' input' = Ok set \/ (dbg' = true /\ exists ts, tokenizes input' ts /\ overflows_file ts).
Proof.
  intros n ss ss' Hdr Hc Ho libs os os' dbg input set input' Hf Hf' Hs Hs' Hok dbg'.
  pose proof (parsed_is _ _ _ Hf Hok _ Hs) as ->. pose proof (parsed_drawable _ _ _ Hf Hok _ Hs) as HD.
  cbn [file_objects] in HD.
  replace (file_means (mkObjFile libs (os ++ (n, ss) :: os'))) with (file_means (mkObjFile libs (os ++ (n, ss') :: os'))).
  - apply parse_means; auto. cbn [file_objects]. apply Forall_app in HD. destruct HD as [H1 H2]. inversion H2; subst.
    apply Forall_app. split; auto.
  - unfold file_means. cbn [file_libraries file_objects]. f_equal. rewrite !objects_of_app. f_equal.
    cbn [objects_of]. now rewrite Hc, Ho.
Qed.

(** * What depends on the statements before *)

Definition silent {A} (decl : statement -> list A) (s : statement) : Prop := decl s = [] /\ is_element s = false.

Lemma declared_silent : forall A (decl : statement -> list A) d a s b, silent decl s ->
  declared decl d (a ++ s :: b) = declared decl d (a ++ b).
Proof.
  intros A decl d a s b [H1 H2].
  assert (F : forall a, flat_map decl (a ++ s :: b) = flat_map decl (a ++ b)).
  { intros x. rewrite !flat_map_app. cbn [flat_map]. now rewrite H1. }
  induction a as [|x a IH]; cbn [app declared].
  - now rewrite H2, H1.
  - rewrite F, IH. reflexivity.
Qed.

Lemma declared_swap : forall A (decl : statement -> list A) d a s s' b, silent decl s \/ silent decl s' ->
  declared decl d (a ++ s :: s' :: b) = declared decl d (a ++ s' :: s :: b).
Proof.
  intros A decl d a s s' b [H|H].
  - rewrite declared_silent by auto. change (a ++ s' :: s :: b) with (a ++ [s'] ++ s :: b).
    rewrite (app_assoc a), (declared_silent _ _ _ (a ++ [s']) s) by auto. now rewrite <- app_assoc.
  - rewrite (declared_silent _ _ _ a s') by auto. change (a ++ s :: s' :: b) with (a ++ [s] ++ s' :: b).
    rewrite (app_assoc a), (declared_silent _ _ _ (a ++ [s]) s') by auto. now rewrite <- app_assoc.
Qed.

Lemma declared_elements : forall A (decl : statement -> list A) d s es,
  (forall e, is_element e = true -> decl e = []) -> es <> [] -> is_element s = true -> Forall (fun e => is_element e = true) es ->
  forall a b, declared decl d (a ++ es ++ b) = declared decl d (a ++ s :: b).
Proof.
  intros A decl d s es Hd Hne Hs Hes.
  assert (F : flat_map decl es = []).
  { clear Hne. induction Hes as [|e es He Hes IH]; [reflexivity|]. cbn. now rewrite (Hd e He), IH. }
  assert (F' : forall a b, flat_map decl (a ++ es ++ b) = flat_map decl (a ++ s :: b)).
  { intros a b. rewrite !flat_map_app. cbn [flat_map]. rewrite F, (Hd s Hs). reflexivity. }
  induction a as [|x a IH]; intros b.
  - cbn [app]. destruct es as [|e es]; [contradiction|]. inversion Hes; subst. cbn [app declared]. rewrite H1, Hs. f_equal.
    cbn [flat_map] in F. apply app_eq_nil in F. rewrite flat_map_app. now rewrite (proj2 F).
  - cbn [app declared]. now rewrite F', IH.
Qed.

Lemma last_group_app : forall a b, last_group (a ++ b) =
  match last_group b with
  | Some (q, names) => Some (a ++ q, names)
  | None => last_group a
  end.
Proof.
  induction a as [|s a IH]; intros b; cbn [app last_group]; [now destruct (last_group b) as [[q names]|]|].
  rewrite IH. destruct (last_group b) as [[q names]|]; [reflexivity|]. reflexivity.
Qed.

Lemma last_group_none : forall ss, (forall s, In s ss -> names_of s = [] /\ forall m, s <> SGroup m) -> last_group ss = None.
Proof.
  induction ss as [|s ss IH]; intros H; [reflexivity|]. cbn [last_group]. rewrite IH by (intros t Ht; apply H; now right).
  destruct (H s (or_introl eq_refl)) as [_ K]. destruct s; auto. exfalso. eapply K; eauto.
Qed.

(** Two histories after which everything goes on in the same way. *)
Definition similar (p q : list statement) : Prop :=
  forall x, groups_at (p ++ x) = groups_at (q ++ x) /\ smoothing_at (p ++ x) = smoothing_at (q ++ x).

Lemma similar_app : forall p q x, similar p q -> similar (p ++ x) (q ++ x).
Proof. intros p q x H y. rewrite <- !app_assoc. apply H. Qed.

Lemma shapes_similar : forall base ss p q i, similar p q -> shapes_from p base ss i = shapes_from q base ss i.
Proof.
  intros base. induction ss as [|s ss IH]; intros p q i H; [reflexivity|]. cbn [shapes_from].
  pose proof (H []) as [Hg Hs]. rewrite !app_nil_r in *. rewrite Hg, Hs. f_equal. apply IH. now apply similar_app.
Qed.

Lemma shapes_app : forall base a pre b i,
  shapes_from pre base (a ++ b) i =
  shapes_from pre base a i ++ shapes_from (pre ++ a) base b (i + length (all_elements base a)).
Proof.
  intros base. induction a as [|s a IH]; intros pre b i.
  - cbn [app shapes_from all_elements flat_map length]. now rewrite app_nil_r, Nat.add_0_r.
  - cbn [app shapes_from]. rewrite IH. rewrite <- (app_assoc pre [s] a). cbn [app]. rewrite app_assoc. f_equal. f_equal.
    unfold all_elements. cbn [flat_map]. rewrite app_length. lia.
Qed.

Lemma segments_app : forall base a m i n b, exists m' gs i' n',
  segments m base (a ++ b) i n = gs ++ segments m' base b i' n' /\
  forall c, segments m base (a ++ c) i n = gs ++ segments m' base c i' n'.
Proof.
  intros base. induction a as [|s a IH]; intros m i n b.
  - exists m, [], i, n. split; reflexivity.
  - destruct s as [v|v|v|names|k|mat|ks|rs|rs];
      try (match goal with |- context [segments m base ((?s :: a) ++ b) i n] =>
             destruct (IH m i (n + length (elements_of base s)) b) as (m' & gs & i' & n' & E & E') end;
           exists m', gs, i', n'; split; [exact E|exact E']).
    destruct (IH (Some mat) (i + n) 0 b) as (m' & gs & i' & n' & E & E').
    exists m', (mkGeometry m (seq i n) :: gs), i', n'. cbn [app segments]. split.
    + now rewrite E.
    + intros c. now rewrite E'.
Qed.

Lemma drop_empty_app : forall gs hs hs', hs <> [] -> hs' <> [] -> drop_empty hs = drop_empty hs' ->
  drop_empty (gs ++ hs) = drop_empty (gs ++ hs').
Proof.
  induction gs as [|g gs IH]; intros hs hs' H H' E; [exact E|]. cbn [app].
  assert (K : forall l, l <> [] -> drop_empty (g :: l) = match shapes g with [] => drop_empty l | _ => g :: drop_empty l end).
  { intros [|x l] Hl; [contradiction|reflexivity]. }
  rewrite !K by (destruct gs; auto; discriminate). now rewrite (IH _ _ H H' E).
Qed.

Lemma segments_some : forall base ss m i n, segments m base ss i n <> [].
Proof.
  intros base. induction ss as [|s ss IH]; intros m i n; [discriminate|]. destruct s; cbn; try apply IH. discriminate.
Qed.

(** * Independent statements *)

Section Swap.
Context (s s' : statement) (Hind : independent s s').

Lemma swap_silent : forall A (decl : statement -> list A) k,
  (forall t, decl t <> [] -> kind_of t = k) -> k <> KElement -> data_kind k = false -> silent decl s \/ silent decl s'.
Proof.
  intros A decl k Hk Hne Hdk. destruct Hind as (H1 & H2 & H3).
  assert (D : forall t, silent decl t \/ kind_of t = k \/ kind_of t = KElement).
  { intros t. unfold silent. destruct (is_element t) eqn:E.
    - right. right. destruct t; try discriminate E; reflexivity.
    - destruct (decl t) eqn:Ed; [now left|]. right. left. apply Hk. rewrite Ed. discriminate. }
  destruct (D s) as [?|[E|E]]; auto; destruct (D s') as [?|[E'|E']]; auto; exfalso.
  - congruence.
  - specialize (H3 E'). rewrite E in H3. congruence.
  - specialize (H2 E). rewrite E' in H2. congruence.
  - congruence.
Qed.

Lemma swap_names : silent names_of s \/ silent names_of s'.
Proof. apply swap_silent with KGroup; try discriminate; auto. intros [] H; try (now destruct H). reflexivity. Qed.

Lemma swap_smoothing : silent smoothing_of s \/ silent smoothing_of s'.
Proof. apply swap_silent with KSmooth; try discriminate; auto. intros [] H; try (now destruct H). reflexivity. Qed.

Lemma swap_flat : forall A (g : statement -> list A) k, (forall t, g t <> [] -> kind_of t = k) ->
  forall a b, flat_map g (a ++ s' :: s :: b) = flat_map g (a ++ s :: s' :: b).
Proof.
  intros A g k Hk a b. rewrite !flat_map_app. f_equal. cbn [flat_map]. rewrite !app_assoc. f_equal.
  destruct (g s) eqn:E; [now rewrite app_nil_r|]. destruct (g s') eqn:E'; [now rewrite app_nil_r|]. exfalso.
  apply (proj1 Hind). rewrite (Hk s), (Hk s'); auto; congruence.
Qed.

Lemma group_here : forall t, (exists names, t = SGroup names) \/ (forall m, t <> SGroup m).
Proof. intros t. destruct t; try (right; intros m H; discriminate). left. eauto. Qed.

Lemma swap_groups : forall a x, groups_at (a ++ s :: s' :: x) = groups_at (a ++ s' :: s :: x).
Proof.
  intros a x. unfold groups_at.
  change (a ++ s :: s' :: x) with (a ++ [s; s'] ++ x). change (a ++ s' :: s :: x) with (a ++ [s'; s] ++ x).
  rewrite !last_group_app. destruct (last_group x) as [[q names]|].
  - unfold all_groups. cbn [app]. now rewrite (declared_swap _ _ _ a s s' q swap_names).
  - cbn [last_group].
    assert (K : forall t, is_element t = false -> (forall m, t <> SGroup m) -> all_groups (a ++ [t]) = all_groups a).
    { intros t He Hg. unfold all_groups. rewrite declared_silent, app_nil_r; auto. split; auto.
      destruct t; auto. exfalso. eapply Hg; eauto. }
    destruct Hind as (H1 & H2 & H3).
    assert (NE : forall t u, (exists names, t = SGroup names) -> (kind_of u = KElement -> data_kind (kind_of t) = true) -> is_element u = false).
    { intros t u [names ->] H. destruct u; auto; discriminate (H eq_refl). }
    destruct (group_here s) as [Hg|Hg], (group_here s') as [Hg'|Hg'].
    + destruct Hg as [x1 ->], Hg' as [x2 ->]. exfalso. now apply H1.
    + pose proof (NE _ _ Hg H3) as He. destruct Hg as [names ->].
      destruct s'; try (rewrite app_nil_r, (K _ He) by discriminate; reflexivity). exfalso. eapply Hg'; eauto.
    + pose proof (NE _ _ Hg' H2) as He. destruct Hg' as [names ->].
      destruct s; try (rewrite app_nil_r, (K _ He) by discriminate; reflexivity). exfalso. eapply Hg; eauto.
    + destruct s, s'; try reflexivity; exfalso; try (eapply Hg; reflexivity); eapply Hg'; reflexivity.
Qed.

Lemma swap_similar : forall a, similar (a ++ [s; s']) (a ++ [s'; s]).
Proof.
  intros a x. rewrite <- !app_assoc. cbn [app]. split; [apply swap_groups|].
  unfold smoothing_at, all_smoothing_groups. now rewrite (declared_swap _ _ _ a s s' x swap_smoothing).
Qed.

Lemma data_at : forall a t, data_kind (kind_of t) = true -> groups_at (a ++ [t]) = groups_at a /\ smoothing_at (a ++ [t]) = smoothing_at a.
Proof.
  intros a t H. split.
  - unfold groups_at. rewrite last_group_app. destruct t; try discriminate H; reflexivity.
  - unfold smoothing_at, all_smoothing_groups. rewrite declared_silent, app_nil_r; auto.
    split; destruct t; try discriminate H; reflexivity.
Qed.

Lemma not_elements : forall base t, is_element t = false -> elements_of base t = [].
Proof. intros base t H. destruct t; try discriminate H; reflexivity. Qed.

Lemma kind_element : forall t, is_element t = true -> kind_of t = KElement.
Proof. intros t H. destruct t; try discriminate H; reflexivity. Qed.

Lemma swap_shapes : forall base a b i, shapes_from [] base (a ++ s' :: s :: b) i = shapes_from [] base (a ++ s :: s' :: b) i.
Proof.
  intros base a b i. rewrite !shapes_app. f_equal. cbn [app shapes_from]. rewrite !app_assoc.
  set (j := i + length (all_elements base a)).
  destruct Hind as (H1 & H2 & H3).
  assert (T : forall k, shapes_from ((a ++ [s']) ++ [s]) base b k = shapes_from ((a ++ [s]) ++ [s']) base b k).
  { intros k. apply shapes_similar. rewrite <- !app_assoc. cbn [app]. intros x. destruct (swap_similar a x) as [E E']. now split. }
  destruct (is_element s) eqn:E; destruct (is_element s') eqn:E'.
  - exfalso. apply H1. now rewrite !kind_element.
  - rewrite (not_elements _ s' E'). cbn [length seq map app]. rewrite !Nat.add_0_r.
    destruct (data_at a s' (H2 (kind_element _ E))) as [-> ->]. now rewrite ?app_nil_r, T.
  - rewrite (not_elements _ s E). cbn [length seq map app]. rewrite !Nat.add_0_r.
    destruct (data_at a s (H3 (kind_element _ E'))) as [-> ->]. now rewrite ?app_nil_r, T.
  - rewrite (not_elements _ s E), (not_elements _ s' E'). cbn [length seq map app]. rewrite !Nat.add_0_r. apply T.
Qed.

Lemma swap_segments : forall base b m i n, segments m base (s' :: s :: b) i n = segments m base (s :: s' :: b) i n.
Proof.
  intros base b m i n. destruct Hind as (H1 & H2 & H3).
  destruct s, s'; cbn [kind_of] in *; try (now exfalso; apply H1);
    try (exfalso; now discriminate (H2 eq_refl)); try (exfalso; now discriminate (H3 eq_refl));
    cbn [segments]; rewrite ?(not_elements base _ eq_refl); cbn [length]; rewrite ?Nat.add_0_r; reflexivity.
Qed.

Lemma swap_count : forall a b base, count_all base (a ++ s' :: s :: b) = count_all base (a ++ s :: s' :: b).
Proof.
  intros a b base. rewrite !count_all_app. unfold count_all. cbn [fold_left]. f_equal.
  destruct s, s'; reflexivity.
Qed.

Lemma swap_object : forall a b base n, object_of base n (a ++ s' :: s :: b) = object_of base n (a ++ s :: s' :: b).
Proof.
  intros a b base n. unfold object_of. f_equal.
  - apply swap_flat with KVertex. intros [] H; try (now destruct H). reflexivity.
  - apply swap_flat with KTexture. intros [] H; try (now destruct H). reflexivity.
  - apply swap_flat with KNormal. intros [] H; try (now destruct H). reflexivity.
  - symmetry. apply declared_swap, swap_names.
  - symmetry. apply declared_swap, swap_smoothing.
  - apply swap_flat with KElement. intros [] H; try (now destruct H); reflexivity.
  - apply swap_shapes.
  - destruct (segments_app base a None 0 0 []) as (m & gs & i & k & _ & E). now rewrite !E, swap_segments.
Qed.

Lemma swap_drawable : forall a b n, drawable (n, a ++ s :: s' :: b) -> drawable (n, a ++ s' :: s :: b).
Proof.
  intros a b n (t & Hin & Ht). exists t. split; auto. cbn [snd] in *. apply in_app_or in Hin. apply in_or_app. cbn in *. tauto.
Qed.
End Swap.

Lemma swapped : forall dbg input set input' libs os n a s s' b os', fits input -> fits input' -> independent s s' ->
  says input (mkObjFile libs (os ++ (n, a ++ s :: s' :: b) :: os')) ->
  says input' (mkObjFile libs (os ++ (n, a ++ s' :: s :: b) :: os')) ->
  parse dbg input = Ok set ->
  forall dbg', parse dbg' input' = Ok set \/ (dbg' = true /\ exists ts, tokenizes input' ts /\ overflows_file ts).
Proof.
  intros dbg input set input' libs os n a s s' b os' Hf Hf' Hi. apply replaced; auto.
  - apply swap_drawable.
  - intros base. now apply swap_count.
  - intros base. now apply swap_object.
Qed.

(** * Elements one by one *)

Section Split.
Context (s : statement) (es : list statement) (Hes : same_elements s es).


Lemma declared_snoc : forall A (decl : statement -> list A) d e, decl e = [] -> is_element e = true -> forall a,
  declared decl d (a ++ [e]) = match declared decl d a with [] => [d] | l => l end.
Proof.
  intros A decl d e Hd He. induction a as [|x a IH]; cbn [app declared].
  - now rewrite He.
  - assert (F : flat_map decl (a ++ [e]) = flat_map decl a) by (rewrite flat_map_app; cbn; now rewrite Hd, !app_nil_r).
    destruct (is_element x); [now rewrite F|]. destruct (decl x); [exact IH|now rewrite F].
Qed.

Lemma element_history : forall a e, is_element e = true ->
  groups_at (a ++ [e]) = groups_at a /\ smoothing_at (a ++ [e]) = smoothing_at a.
Proof.
  intros a e H. split.
  - unfold groups_at. rewrite last_group_app. destruct e; try discriminate H; reflexivity.
  - unfold smoothing_at, all_smoothing_groups. rewrite declared_snoc; auto.
    + destruct (declared smoothing_of 0%N a); reflexivity.
    + destruct e; try discriminate H; reflexivity.
Qed.

Lemma draw_inj : forall l m, map draw_element l = map draw_element m -> l = m.
Proof.
  induction l as [|e l IH]; intros [|e' m] H; try discriminate H; [reflexivity|].
  cbn [map] in H. injection H as He Hl. f_equal; auto. destruct e, e'; cbn in He; inversion He; reflexivity.
Qed.

Lemma split_elements : forall base, flat_map (elements_of base) es = elements_of base s.
Proof.
  intros base. destruct Hes as (_ & _ & _ & E).
  assert (K : all_elements base es = all_elements base [s]).
  { pose proof (all_elements_written base es) as K1. pose proof (all_elements_written base [s]) as K2.
    cbn [flat_map] in K2. rewrite app_nil_r, <- E in K2. rewrite <- K1 in K2.
    apply draw_inj. now symmetry. }
  unfold all_elements in K. rewrite K. cbn. apply app_nil_r.
Qed.

Lemma split_shapes : forall base a i, shapes_from a base es i = shapes_from a base [s] i.
Proof.
  intros base a i. pose proof (split_elements base) as E. destruct Hes as (_ & Hs & HF & _).
  cbn [shapes_from]. rewrite app_nil_r, <- E. clear E Hes. revert a i. induction HF as [|e l He HF IH]; intros a i; [reflexivity|].
  cbn [shapes_from flat_map]. rewrite IH, app_length, seq_app, map_app. f_equal.
  destruct (element_history a e He) as [-> ->]. reflexivity.
Qed.

Lemma split_groups : forall a b, all_groups (a ++ es ++ b) = all_groups (a ++ s :: b).
Proof.
  destruct Hes as (H1 & H2 & H3 & _). intros a b. apply declared_elements; auto. intros [] H; try discriminate H; reflexivity.
Qed.

Lemma split_smoothing : forall a b, all_smoothing_groups (a ++ es ++ b) = all_smoothing_groups (a ++ s :: b).
Proof.
  destruct Hes as (H1 & H2 & H3 & _). intros a b. apply declared_elements; auto. intros [] H; try discriminate H; reflexivity.
Qed.

Lemma split_similar : forall a, similar (a ++ es) (a ++ [s]).
Proof.
  intros a x. rewrite <- !app_assoc. cbn [app]. split.
  - unfold groups_at. rewrite last_group_app, (last_group_app a (s :: x)).
    rewrite last_group_app. change (s :: x) with ([s] ++ x). rewrite (last_group_app [s] x).
    destruct (last_group x) as [[q names]|]; [now rewrite split_groups|].
    assert (K : forall l, Forall (fun e => is_element e = true) l -> last_group l = None).
    { intros l H. apply last_group_none. intros e He. rewrite Forall_forall in H. specialize (H e He).
      destruct e; try discriminate H; (split; [reflexivity|discriminate]). }
    destruct Hes as (_ & Hs & HF & _). rewrite (K _ HF), (K [s]) by (constructor; auto). reflexivity.
  - unfold smoothing_at. now rewrite split_smoothing.
Qed.

Lemma split_flat : forall A (g : statement -> list A), (forall e, is_element e = true -> g e = []) -> forall a b,
  flat_map g (a ++ es ++ b) = flat_map g (a ++ s :: b).
Proof.
  intros A g Hg a b. destruct Hes as (_ & Hs & HF & _). rewrite !flat_map_app. f_equal. cbn [flat_map]. f_equal.
  rewrite (Hg s Hs). clear - Hg HF. induction HF as [|e l He HF IH]; [reflexivity|]. cbn. now rewrite (Hg e He), IH.
Qed.

Lemma split_segments : forall base b m i n, segments m base (es ++ b) i n = segments m base (s :: b) i n.
Proof.
  intros base b m i n. pose proof (split_elements base) as E. destruct Hes as (_ & Hs & HF & _).
  assert (K : forall e l m i n, is_element e = true -> segments m base (e :: l) i n = segments m base l i (n + length (elements_of base e))).
  { intros e l m0 i0 n0 He. destruct e; try discriminate He; reflexivity. }
  rewrite K by auto. rewrite <- E. clear E Hes. revert n. induction HF as [|e l He HF IH]; intros n.
  - cbn. now rewrite Nat.add_0_r.
  - cbn [app flat_map]. rewrite K, IH, app_length by auto. f_equal. lia.
Qed.

Lemma split_object : forall a b base n, object_of base n (a ++ es ++ b) = object_of base n (a ++ s :: b).
Proof.
  intros a b base n. unfold object_of. f_equal.
  - apply split_flat. intros [] H; try discriminate H; reflexivity.
  - apply split_flat. intros [] H; try discriminate H; reflexivity.
  - apply split_flat. intros [] H; try discriminate H; reflexivity.
  - apply split_groups.
  - apply split_smoothing.
  - unfold all_elements. rewrite !flat_map_app. f_equal. cbn [flat_map]. f_equal. apply split_elements.
  - rewrite !shapes_app. f_equal. change (s :: b) with ([s] ++ b). rewrite shapes_app. f_equal; [apply split_shapes|].
    unfold all_elements. rewrite split_elements. cbn [flat_map]. rewrite app_nil_r.
    apply shapes_similar. cbn [app]. apply split_similar.
  - destruct (segments_app base a None 0 0 []) as (m & gs & i & k & _ & E). now rewrite !E, split_segments.
Qed.

Lemma split_count : forall a b base, count_all base (a ++ es ++ b) = count_all base (a ++ s :: b).
Proof.
  intros a b base. rewrite !count_all_app. destruct Hes as (_ & Hs & HF & _).
  assert (K : forall e c, is_element e = true -> count c e = c) by (intros [] c H; try discriminate H; reflexivity).
  assert (E : forall c, count_all c es = c).
  { unfold count_all. clear - HF K. induction HF as [|e l He HF IH]; intros c; [reflexivity|]. cbn [fold_left]. rewrite (K e) by auto. apply IH. }
  rewrite E. unfold count_all at 3. cbn [fold_left]. now rewrite (K s).
Qed.

Lemma split_drawable : forall a b n, drawable (n, a ++ s :: b) -> drawable (n, a ++ es ++ b).
Proof.
  intros a b n _. destruct Hes as (H & _ & HF & _). destruct es as [|e l]; [contradiction|]. inversion HF; subst.
  exists e. split; [|now left]. cbn [snd app]. apply in_elt.
Qed.

Lemma unsplit_drawable : forall a b n, drawable (n, a ++ es ++ b) -> drawable (n, a ++ s :: b).
Proof.
  intros a b n _. destruct Hes as (_ & H & _). exists s. split; [|now left]. cbn [snd]. apply in_elt.
Qed.
End Split.

Lemma split_up : forall dbg input set input' libs os n a s es b os', fits input -> fits input' -> same_elements s es ->
  says input (mkObjFile libs (os ++ (n, a ++ s :: b) :: os')) ->
  says input' (mkObjFile libs (os ++ (n, a ++ es ++ b) :: os')) ->
  parse dbg input = Ok set ->
  forall dbg', parse dbg' input' = Ok set \/ (dbg' = true /\ exists ts, tokenizes input' ts /\ overflows_file ts).
Proof.
  intros dbg input set input' libs os n a s es b os' Hf Hf' Hi. apply replaced; auto.
  - now apply split_drawable.
  - intros base. now apply split_count.
  - intros base. now apply split_object.
Qed.

Lemma put_together : forall dbg input set input' libs os n a s es b os', fits input -> fits input' -> same_elements s es ->
  says input (mkObjFile libs (os ++ (n, a ++ es ++ b) :: os')) ->
  says input' (mkObjFile libs (os ++ (n, a ++ s :: b) :: os')) ->
  parse dbg input = Ok set ->
  forall dbg', parse dbg' input' = Ok set \/ (dbg' = true /\ exists ts, tokenizes input' ts /\ overflows_file ts).
Proof.
  intros dbg input set input' libs os n a s es b os' Hf Hf' Hi. apply replaced; auto.
  - now apply unsplit_drawable.
  - intros base. symmetry. now apply split_count.
  - intros base. symmetry. now apply split_object.
Qed.

(** The ways of splitting. *)
Lemma split_points : forall ks, ks <> [] -> same_elements (SPoint ks) (map (fun k => SPoint [k]) ks).
Proof.
  intros ks H. split; [now destruct ks|]. split; [reflexivity|]. split.
  - apply Forall_forall. intros e He. apply in_map_iff in He. destruct He as (k & <- & _). reflexivity.
  - cbn [written]. clear H. induction ks as [|k ks IH]; [reflexivity|]. cbn [map flat_map app written]. now rewrite IH.
Qed.

Lemma flat_map_single : forall A B C (h : B -> list C) (f : A -> B) (g : A -> C) l, (forall x, h (f x) = [g x]) ->
  flat_map h (map f l) = map g l.
Proof. intros A B C h f g l H. induction l as [|x l IH]; [reflexivity|]. cbn. now rewrite H, IH. Qed.

Lemma split_line : forall rs, 2 <= length rs ->
  same_elements (SLine rs) (map (fun i => SLine [nth_ref rs i; nth_ref rs (i + 1)]) (seq 0 (length rs - 1))).
Proof.
  intros rs H. split; [|split; [reflexivity|split]].
  - destruct (length rs - 1) eqn:E; [lia|discriminate].
  - apply Forall_forall. intros e He. apply in_map_iff in He. destruct He as (k & <- & _). reflexivity.
  - apply flat_map_single. reflexivity.
Qed.

Lemma split_face : forall rs, 3 <= length rs ->
  same_elements (SFace rs) (map (fun i => SFace [nth_ref rs 0; nth_ref rs (i + 1); nth_ref rs (i + 2)]) (seq 0 (length rs - 2))).
Proof.
  intros rs H. split; [|split; [reflexivity|split]].
  - destruct (length rs - 2) eqn:E; [lia|discriminate].
  - apply Forall_forall. intros e He. apply in_map_iff in He. destruct He as (k & <- & _). reflexivity.
  - apply flat_map_single. reflexivity.
Qed.

(** * A material that is not used *)

Section Unused.
Context (m m' : bytes) (mid : list statement) (Hmid : Forall (fun s => is_element s = false /\ forall k, s <> SUse k) mid).

Lemma unused_flat : forall A (g : statement -> list A), (forall k, g (SUse k) = []) -> forall a b,
  flat_map g (a ++ mid ++ SUse m' :: b) = flat_map g (a ++ SUse m :: mid ++ SUse m' :: b).
Proof. intros A g Hg a b. rewrite !flat_map_app. f_equal. cbn [flat_map]. rewrite flat_map_app, (Hg m). reflexivity. Qed.

Lemma unused_segments : forall base b mat i n,
  drop_empty (segments mat base (SUse m :: mid ++ SUse m' :: b) i n) = drop_empty (segments mat base (mid ++ SUse m' :: b) i n).
Proof.
  intros base b mat i n. cbn [segments].
  assert (K : forall mat i n, segments mat base (mid ++ SUse m' :: b) i n = mkGeometry mat (seq i n) :: segments (Some m') base b (i + n) 0).
  { clear - Hmid. induction Hmid as [|s l [He Hu] HF IH]; intros mat i n; [reflexivity|].
    cbn [app]. destruct s; try discriminate He; try (cbn [segments elements_of length]; rewrite Nat.add_0_r; now apply IH).
    exfalso. eapply Hu; eauto. }
  rewrite !K, Nat.add_0_r. cbn [seq].
  pose proof (segments_some base b (Some m') (i + n) 0) as Hs.
  destruct (segments (Some m') base b (i + n) 0) as [|g gs]; [contradiction|]. reflexivity.
Qed.

Lemma unused_history : forall a, similar (a ++ [SUse m]) a.
Proof.
  intros a x. rewrite <- app_assoc. cbn [app]. split.
  - unfold groups_at. rewrite !last_group_app. change (SUse m :: x) with ([SUse m] ++ x). rewrite last_group_app.
    destruct (last_group x) as [[q names]|]; [|reflexivity]. unfold all_groups. cbn [app].
    rewrite declared_silent by (split; reflexivity). reflexivity.
  - unfold smoothing_at, all_smoothing_groups. rewrite declared_silent by (split; reflexivity). reflexivity.
Qed.

Lemma unused_object : forall a b base n,
  object_of base n (a ++ mid ++ SUse m' :: b) = object_of base n (a ++ SUse m :: mid ++ SUse m' :: b).
Proof.
  intros a b base n. unfold object_of. f_equal.
  - now apply unused_flat.
  - now apply unused_flat.
  - now apply unused_flat.
  - symmetry. apply declared_silent. split; reflexivity.
  - symmetry. apply declared_silent. split; reflexivity.
  - now apply unused_flat.
  - rewrite (shapes_app base a [] (mid ++ SUse m' :: b)), (shapes_app base a [] (SUse m :: mid ++ SUse m' :: b)). f_equal.
    change (SUse m :: mid ++ SUse m' :: b) with ([SUse m] ++ (mid ++ SUse m' :: b)). rewrite (shapes_app base [SUse m]).
    change (all_elements base [SUse m]) with (@nil element). cbn [length]. rewrite Nat.add_0_r.
    symmetry. apply (shapes_similar base _ (a ++ [SUse m]) a). apply unused_history.
  - destruct (segments_app base a None 0 0 []) as (mat & gs & i & k & _ & E). rewrite !E.
    apply drop_empty_app; try apply segments_some. symmetry. apply unused_segments.
Qed.
End Unused.

Lemma unused_material : forall dbg input set input' libs os n a m mid m' b os', fits input -> fits input' ->
  Forall (fun s => is_element s = false /\ forall k, s <> SUse k) mid ->
  says input (mkObjFile libs (os ++ (n, a ++ SUse m :: mid ++ SUse m' :: b) :: os')) ->
  says input' (mkObjFile libs (os ++ (n, a ++ mid ++ SUse m' :: b) :: os')) ->
  parse dbg input = Ok set ->
  forall dbg', parse dbg' input' = Ok set \/ (dbg' = true /\ exists ts, tokenizes input' ts /\ overflows_file ts).
Proof.
  intros dbg input set input' libs os n a m mid m' b os' Hf Hf' Hm. apply replaced; auto.
  - intros _. exists (SUse m'). split; [|right; eauto]. cbn [snd]. rewrite app_assoc. apply in_elt.
  - intros base. unfold count_all. rewrite !(fold_left_app count a). reflexivity.
  - intros base. now apply unused_object.
Qed.

(** * Moved objects *)

Section Moved.
Context (base base' : counts).

Lemma moved_local : forall now r r', ref_in_scope base now r -> moved_ref base base' r r' -> local_ref base' r' = local_ref base r.
Proof.
  intros now [v t n] [v' t' n'] (Hv & Ht & Hn) (Mv & Mt & Mn). unfold local_ref, local_index, moved_number, in_scope in *.
  cbn [ref_v ref_t ref_n] in *. replace (v' - S (n_v base')) with (v - S (n_v base)) by lia.
  destruct t as [t|], t' as [t'|], n as [n|], n' as [n'|]; cbn [moved_part part_in_scope] in *; unfold moved_number, in_scope in *; try contradiction;
    repeat match goal with
    | H : ?k + n_t base' = ?k' + n_t base |- _ => replace (k' - S (n_t base')) with (k - S (n_t base)) by lia; clear H
    | H : ?k + n_n base' = ?k' + n_n base |- _ => replace (k' - S (n_n base')) with (k - S (n_n base)) by lia; clear H
    end; reflexivity.
Qed.

Lemma moved_refs : forall now rs rs', Forall (ref_in_scope base now) rs -> Forall2 (moved_ref base base') rs rs' ->
  map (local_ref base') rs' = map (local_ref base) rs.
Proof.
  intros now rs rs' HF H. induction H as [|r r' rs rs' Hr H IH]; [reflexivity|]. inversion HF; subst.
  cbn [map]. now rewrite (moved_local _ _ _ H2 Hr), IH.
Qed.

Lemma moved_elements : forall now s s', proper base now s -> moved base base' s s' -> elements_of base' s' = elements_of base s.
Proof.
  intros now s s' Hp H. destruct H as [ks ks' H|rs rs' H|rs rs' H|s H]; cbn [proper] in Hp.
  - destruct Hp as [_ Hp]. cbn [elements_of]. induction H as [|k k' ks ks' Hk H IH]; [reflexivity|]. inversion Hp; subst.
    cbn [map]. rewrite IH by auto. f_equal. unfold local_index, moved_number, in_scope in *.
    replace (k' - S (n_v base')) with (k - S (n_v base)) by lia. reflexivity.
  - destruct Hp as (_ & _ & Hp). cbn [elements_of]. now rewrite (moved_refs _ _ _ Hp H).
  - destruct Hp as (_ & _ & Hp). cbn [elements_of]. now rewrite (moved_refs _ _ _ Hp H).
  - now rewrite !not_elements.
Qed.

Lemma moved_kind : forall s s', moved base base' s s' -> is_element s' = is_element s /\
  (is_element s = true \/ s' = s).
Proof. intros s s' H. destruct H; auto. Qed.

Lemma moved_flat : forall A (g : statement -> list A), (forall e, is_element e = true -> g e = []) ->
  forall ss ss', Forall2 (moved base base') ss ss' -> flat_map g ss' = flat_map g ss.
Proof.
  intros A g Hg ss ss' H. induction H as [|s s' ss ss' Hs H IH]; [reflexivity|]. cbn [flat_map]. rewrite IH. f_equal.
  destruct (moved_kind _ _ Hs) as [E [K | ->]]; [|reflexivity]. rewrite !Hg by congruence. reflexivity.
Qed.

Lemma moved_declared : forall A (decl : statement -> list A) d, (forall e, is_element e = true -> decl e = []) ->
  forall ss ss', Forall2 (moved base base') ss ss' -> declared decl d ss' = declared decl d ss.
Proof.
  intros A decl d Hg ss ss' H. induction H as [|s s' ss ss' Hs H IH]; [reflexivity|]. cbn [declared].
  rewrite (moved_flat _ decl Hg _ _ H), IH. destruct (moved_kind _ _ Hs) as [E [K | ->]]; [|reflexivity]. now rewrite E, K.
Qed.

Lemma moved_last : forall ss ss', Forall2 (moved base base') ss ss' ->
  match last_group ss, last_group ss' with
  | None, None => True
  | Some (q, names), Some (q', names') => Forall2 (moved base base') q q' /\ names' = names
  | _, _ => False
  end.
Proof.
  intros ss ss' H. induction H as [|s s' ss ss' Hs H IH]; [exact I|]. cbn [last_group].
  destruct (last_group ss) as [[q names]|], (last_group ss') as [[q' names']|]; try contradiction.
  - destruct IH as [IH ->]. split; auto.
  - destruct Hs as [| | |s Hs]; try exact I. destruct s; auto.
Qed.

Lemma names_element : forall e, is_element e = true -> names_of e = [].
Proof. intros [] H; try discriminate H; reflexivity. Qed.
Lemma smoothing_element : forall e, is_element e = true -> smoothing_of e = [].
Proof. intros [] H; try discriminate H; reflexivity. Qed.

Lemma moved_history : forall ss ss', Forall2 (moved base base') ss ss' ->
  groups_at ss' = groups_at ss /\ smoothing_at ss' = smoothing_at ss.
Proof.
  intros ss ss' H. split.
  - unfold groups_at. pose proof (moved_last _ _ H) as K.
    destruct (last_group ss) as [[q names]|], (last_group ss') as [[q' names']|]; try contradiction; [|reflexivity].
    destruct K as [K ->]. unfold all_groups. now rewrite (moved_declared _ _ _ names_element _ _ K).
  - unfold smoothing_at, all_smoothing_groups. now rewrite (moved_declared _ _ _ smoothing_element _ _ H).
Qed.

Lemma moved_shapes : forall ss ss', Forall2 (moved base base') ss ss' -> forall now, proper_body base now ss ->
  forall p p' i, Forall2 (moved base base') p p' -> shapes_from p' base' ss' i = shapes_from p base ss i.
Proof.
  intros ss ss' H. induction H as [|s s' ss ss' Hs H IH]; intros now Hp p p' i Hpp; [reflexivity|].
  destruct Hp as [Hp Hb]. cbn [shapes_from]. rewrite (moved_elements _ _ _ Hp Hs).
  destruct (moved_history _ _ Hpp) as [-> ->]. f_equal. eapply IH; eauto. apply Forall2_app; auto.
Qed.

Lemma moved_all_elements : forall ss ss', Forall2 (moved base base') ss ss' -> forall now, proper_body base now ss ->
  all_elements base' ss' = all_elements base ss.
Proof.
  intros ss ss' H. unfold all_elements. induction H as [|s s' ss ss' Hs H IH]; intros now Hp; [reflexivity|].
  destruct Hp as [Hp Hb]. cbn [flat_map]. now rewrite (moved_elements _ _ _ Hp Hs), (IH _ Hb).
Qed.

Lemma moved_segments : forall ss ss', Forall2 (moved base base') ss ss' -> forall now, proper_body base now ss ->
  forall m i n, segments m base' ss' i n = segments m base ss i n.
Proof.
  intros ss ss' H. induction H as [|s s' ss ss' Hs H IH]; intros now Hp m i n; [reflexivity|]. destruct Hp as [Hp Hb].
  pose proof (moved_elements _ _ _ Hp Hs) as E.
  assert (K : forall base (e : statement) l m i n, (forall u, e <> SUse u) ->
    segments m base (e :: l) i n = segments m base l i (n + length (elements_of base e))).
  { intros b0 e l m0 i0 n0 He. destruct e; try reflexivity. exfalso. eapply He; eauto. }
  destruct Hs as [| | |s Hs]; try (rewrite !K by discriminate; rewrite E; eapply IH; eauto).
  destruct s; try (rewrite !K by discriminate; rewrite E; eapply IH; eauto).
  cbn [segments]. f_equal. eapply IH; eauto.
Qed.

Lemma moved_object : forall n ss ss', Forall2 (moved base base') ss ss' -> proper_body base base ss ->
  object_of base' n ss' = object_of base n ss.
Proof.
  intros n ss ss' H Hp. unfold object_of. f_equal.
  - apply moved_flat; auto. intros [] K; try discriminate K; reflexivity.
  - apply moved_flat; auto. intros [] K; try discriminate K; reflexivity.
  - apply moved_flat; auto. intros [] K; try discriminate K; reflexivity.
  - apply moved_declared; auto. apply names_element.
  - apply moved_declared; auto. apply smoothing_element.
  - eapply moved_all_elements; eauto.
  - eapply moved_shapes; eauto.
  - now rewrite (moved_segments _ _ H _ Hp).
Qed.
End Moved.

Lemma moved_objects : forall dbg dbg' input input' set set' f f' i j n ss ss', fits input -> fits input' ->
  parse dbg input = Ok set -> parse dbg' input' = Ok set' -> says input f -> says input' f' ->
  nth_error (file_objects f) i = Some (n, ss) -> nth_error (file_objects f') j = Some (n, ss') ->
  Forall2 (moved (base_of f i) (base_of f' j)) ss ss' ->
  nth_error (objects set) i = nth_error (objects set') j.
Proof.
  intros dbg dbg' input input' set set' f f' i j n ss ss' Hf Hf' Hok Hok' Hs Hs' Hi Hj HM.
  pose proof (parsed_is _ _ _ Hf Hok _ Hs) as E. pose proof (parsed_is _ _ _ Hf' Hok' _ Hs') as E'. subst.
  unfold file_means. cbn [objects]. rewrite (objects_of_nth _ _ _ _ Hi), (objects_of_nth _ _ _ _ Hj).
  rewrite <- !base_is. f_equal. cbn [fst snd]. symmetry. apply moved_object; auto.
  pose proof (proper_nth _ _ _ _ (said_proper _ _ Hs) Hi) as Hp. cbn [snd] in Hp. rewrite <- base_is in Hp. exact Hp.
Qed.

(** * Other data *)

Section Map.
Context (T : transform) (HT : keeps_defaults T).

Lemma map_is_element : forall s, is_element (map_statement T s) = is_element s.
Proof. intros []; reflexivity. Qed.

Lemma map_names : forall s, names_of (map_statement T s) = map (on_group T) (names_of s).
Proof. intros []; reflexivity. Qed.

Lemma map_smoothing : forall s, smoothing_of (map_statement T s) = map (on_smoothing T) (smoothing_of s).
Proof. intros []; reflexivity. Qed.

Lemma map_flat : forall A (g : statement -> list A) (h : A -> A), (forall s, g (map_statement T s) = map h (g s)) ->
  forall ss, flat_map g (map (map_statement T) ss) = map h (flat_map g ss).
Proof. intros A g h H. induction ss as [|s ss IH]; [reflexivity|]. cbn [map flat_map]. now rewrite H, IH, map_app. Qed.

Lemma map_declared : forall A (decl : statement -> list A) (h : A -> A) d, h d = d ->
  (forall s, decl (map_statement T s) = map h (decl s)) ->
  forall ss, declared decl d (map (map_statement T) ss) = map h (declared decl d ss).
Proof.
  intros A decl h d Hd H. induction ss as [|s ss IH]; [reflexivity|]. cbn [map declared].
  rewrite map_is_element, (map_flat _ _ _ H), H. destruct (is_element s); [cbn [map]; now rewrite Hd|].
  destruct (decl s) as [|x l]; [exact IH|]. cbn [map]. now rewrite map_app.
Qed.

Lemma map_count : forall ss base, count_all base (map (map_statement T) ss) = count_all base ss.
Proof. induction ss as [|s ss IH]; intros base; [reflexivity|]. unfold count_all in *. cbn [map fold_left]. rewrite IH. now destruct s. Qed.

Lemma map_elements : forall base s, elements_of base (map_statement T s) = elements_of base s.
Proof. intros base []; reflexivity. Qed.

Lemma map_last : forall ss, last_group (map (map_statement T) ss) =
  match last_group ss with
  | Some (q, names) => Some (map (map_statement T) q, map (on_group T) names)
  | None => None
  end.
Proof.
  induction ss as [|s ss IH]; [reflexivity|]. cbn [map last_group]. rewrite IH.
  destruct (last_group ss) as [[q names]|]; [reflexivity|]. destruct s; reflexivity.
Qed.

Lemma map_history : forall ss, groups_at (map (map_statement T) ss) = groups_at ss /\
  smoothing_at (map (map_statement T) ss) = smoothing_at ss.
Proof.
  intros ss. destruct HT as [Hg Hs]. split.
  - unfold groups_at. rewrite map_last. destruct (last_group ss) as [[q names]|]; [|reflexivity].
    unfold all_groups. rewrite (map_declared _ _ _ _ Hg map_names), !map_length.
    destruct (declared names_of (lit "default") q) as [|d ds]; destruct names as [|x xs]; cbn [map length]; rewrite ?map_length; reflexivity.
  - unfold smoothing_at, all_smoothing_groups. now rewrite (map_declared _ _ _ _ Hs map_smoothing), map_length.
Qed.

Lemma map_shapes : forall base ss p i,
  shapes_from (map (map_statement T) p) base (map (map_statement T) ss) i = shapes_from p base ss i.
Proof.
  intros base. induction ss as [|s ss IH]; intros p i; [reflexivity|]. cbn [map shapes_from]. rewrite map_elements.
  destruct (map_history p) as [-> ->]. f_equal. rewrite <- IH, map_app. reflexivity.
Qed.

Definition map_geometry (g : geometry) : geometry :=
  mkGeometry (option_map (on_material T) (material_name g)) (shapes g).

Lemma map_segments : forall base ss m i n,
  segments (option_map (on_material T) m) base (map (map_statement T) ss) i n = map map_geometry (segments m base ss i n).
Proof.
  intros base. induction ss as [|s ss IH]; intros m i n; [reflexivity|].
  destruct s; cbn [map map_statement segments]; try apply IH. unfold map_geometry at 1. cbn [material_name shapes]. f_equal.
  apply (IH (Some material)).
Qed.

Lemma map_drop : forall gs, drop_empty (map map_geometry gs) = map map_geometry (drop_empty gs).
Proof.
  induction gs as [|g gs IH]; [reflexivity|]. destruct gs as [|g' gs]; [reflexivity|].
  change (drop_empty (map map_geometry (g :: g' :: gs))) with
    (match shapes g with [] => drop_empty (map map_geometry (g' :: gs)) | _ => map_geometry g :: drop_empty (map map_geometry (g' :: gs)) end).
  change (drop_empty (g :: g' :: gs)) with (match shapes g with [] => drop_empty (g' :: gs) | _ => g :: drop_empty (g' :: gs) end).
  rewrite IH. destruct (shapes g); reflexivity.
Qed.

Lemma map_object_of : forall base n ss,
  object_of base (on_name T n) (map (map_statement T) ss) = map_object T (object_of base n ss).
Proof.
  intros base n ss. destruct HT as [Hg Hs]. unfold object_of, map_object. cbn [name vertex_set texture_vertex_set normal_vertex_set
    group_set smoothing_group_set element_set shape_set geometry_set]. f_equal.
  - apply map_flat. intros []; reflexivity.
  - apply map_flat. intros []; reflexivity.
  - apply map_flat. intros []; reflexivity.
  - now apply map_declared; [|apply map_names].
  - now apply map_declared; [|apply map_smoothing].
  - unfold all_elements. induction ss as [|s ss IH]; [reflexivity|]. cbn [map flat_map]. now rewrite map_elements, IH.
  - apply (map_shapes base ss [] 0).
  - pose proof (map_segments base ss None 0 0) as K. cbn [option_map] in K. rewrite K. apply map_drop.
Qed.

Lemma map_objects_of : forall os base,
  objects_of base (map (fun '(n, ss) => (on_name T n, map (map_statement T) ss)) os) = map (map_object T) (objects_of base os).
Proof.
  induction os as [|[n ss] os IH]; intros base; [reflexivity|]. cbn [map objects_of]. now rewrite map_object_of, map_count, IH.
Qed.

Lemma map_means : forall f, file_means (map_file T f) = map_set T (file_means f).
Proof. intros f. unfold file_means, map_file, map_set. cbn [file_libraries file_objects material_libraries objects]. now rewrite map_objects_of. Qed.

Lemma map_drawable : forall f, Forall drawable (file_objects f) -> Forall drawable (file_objects (map_file T f)).
Proof.
  intros f H. cbn [map_file file_objects]. apply Forall_forall. intros o Ho. apply in_map_iff in Ho.
  destruct Ho as ([n ss] & <- & Hin). rewrite Forall_forall in H. destruct (H _ Hin) as (s & Hs & K).
  exists (map_statement T s). split; [now apply in_map|]. rewrite map_is_element. destruct K as [K|[m ->]]; [now left|right].
  cbn. eauto.
Qed.

Lemma mapped : forall dbg input set f input', fits input -> fits input' -> says input f -> says input' (map_file T f) ->
  parse dbg input = Ok set ->
  forall dbg', parse dbg' input' = Ok (map_set T set) \/ (dbg' = true /\ exists ts, tokenizes input' ts /\ overflows_file ts).
Proof.
  intros dbg input set f input' Hf Hf' Hs Hs' Hok dbg'. rewrite (parsed_is _ _ _ Hf Hok _ Hs), <- map_means.
  apply parse_means; auto. apply map_drawable. exact (parsed_drawable _ _ _ Hf Hok _ Hs).
Qed.
End Map.
