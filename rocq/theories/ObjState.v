(** The local state of [Parser::parse_object] after a sequence of statements,
    and the object built from it, against the meaning of ObjSpec.v. *)
From Verif Require Import ObjModel SourceProofs RunProofs ObjSpec ObjBody.
Local Open Scope list_scope.

Definition run_statements (ss : list statement) (st : object_state) : object_state :=
  fold_left (fun st s => apply_statement s st) ss st.

Lemma run_snoc : forall ss s st, run_statements (ss ++ [s]) st = apply_statement s (run_statements ss st).
Proof. intros. unfold run_statements. now rewrite fold_left_app. Qed.

Lemma base_run : forall ss st, base_of (run_statements ss st) = base_of st.
Proof.
  induction ss as [|s ss IH]; intros st; [reflexivity|]. cbn. rewrite IH. apply base_apply.
Qed.

Lemma now_run : forall ss st, now_of (run_statements ss st) = count_all (now_of st) ss.
Proof.
  induction ss as [|s ss IH]; intros st; [reflexivity|]. cbn. rewrite IH, now_apply. reflexivity.
Qed.

(** * The meaning of a sequence with one more statement *)

Lemma declared_app_nonempty : forall A (decl : statement -> list A) d,
  (forall s, is_element s = true -> decl s = []) ->
  forall ss s, declared decl d (ss ++ [s]) =
    if is_element s
    then match declared decl d ss with [] => [d] | l => l end
    else declared decl d ss ++ decl s.
Proof.
  intros A decl d Hd. induction ss as [|a ss IH]; intros s; cbn [app declared].
  - destruct (is_element s) eqn:E; [reflexivity|]. destruct (decl s) eqn:Ed; cbn; now rewrite ?app_nil_r.
  - assert (Hf : flat_map decl (ss ++ [s]) = flat_map decl ss ++ decl s).
    { rewrite flat_map_app. cbn. now rewrite app_nil_r. }
    destruct (is_element a) eqn:Ea.
    + rewrite Hf. destruct (is_element s) eqn:E; [|reflexivity]. rewrite (Hd s E), app_nil_r. reflexivity.
    + destruct (decl a) as [|x xs] eqn:Eda; [apply IH|].
      rewrite Hf. destruct (is_element s) eqn:E.
      * rewrite (Hd s E), app_nil_r. reflexivity.
      * rewrite app_assoc. reflexivity.
Qed.

Lemma all_groups_snoc : forall ss s, all_groups (ss ++ [s]) =
  if is_element s then match all_groups ss with [] => [lit "default"] | l => l end
  else all_groups ss ++ names_of s.
Proof. intros. apply declared_app_nonempty. now intros []. Qed.

Lemma all_smoothing_groups_snoc : forall ss s, all_smoothing_groups (ss ++ [s]) =
  if is_element s then match all_smoothing_groups ss with [] => [0%N] | l => l end
  else all_smoothing_groups ss ++ smoothing_of s.
Proof. intros. apply declared_app_nonempty. now intros []. Qed.

Lemma all_elements_snoc : forall base ss s,
  all_elements base (ss ++ [s]) = all_elements base ss ++ elements_of base s.
Proof. intros. unfold all_elements. rewrite flat_map_app. cbn. now rewrite app_nil_r. Qed.

Lemma last_group_snoc : forall ss s, last_group (ss ++ [s]) =
  match s with SGroup names => Some (ss, names) | _ => last_group ss end.
Proof.
  induction ss as [|a ss IH]; intros s; cbn [app last_group].
  - now destruct s.
  - rewrite IH. now destruct s.
Qed.

Lemma groups_at_snoc : forall ss s, groups_at (ss ++ [s]) =
  match s with
  | SGroup names => match all_groups ss, names with
                    | [], [] => [0]
                    | d, _ => seq (length d) (length names)
                    end
  | _ => groups_at ss
  end.
Proof. intros ss s. unfold groups_at. rewrite last_group_snoc. now destruct s. Qed.

Lemma elements_of_other : forall base s, is_element s = false -> elements_of base s = [].
Proof. intros base [] H; try reflexivity; discriminate. Qed.

Lemma shapes_from_snoc : forall base ss s before i,
  shapes_from before base (ss ++ [s]) i =
  shapes_from before base ss i ++
  map (fun j => mkShapeEntry j (groups_at (before ++ ss)) (smoothing_at (before ++ ss)))
      (seq (i + length (all_elements base ss)) (length (elements_of base s))).
Proof.
  intros base. induction ss as [|a ss IH]; intros s before i; cbn [app shapes_from].
  - cbn. now rewrite !app_nil_r, Nat.add_0_r.
  - rewrite IH, <- !app_assoc. cbn [app].
    unfold all_elements. cbn [flat_map]. rewrite app_length, Nat.add_assoc. reflexivity.
Qed.

(** * Groups and smoothing groups of the elements *)

Section After.
Context (base : counts).

Definition shapes_of (ss : list statement) : list shape_entry := shapes_from [] base ss 0.

Lemma shapes_of_snoc : forall ss s, shapes_of (ss ++ [s]) = shapes_of ss ++
  map (fun j => mkShapeEntry j (groups_at ss) (smoothing_at ss))
      (seq (length (all_elements base ss)) (length (elements_of base s))).
Proof. intros. apply shapes_from_snoc. Qed.

Lemma shapes_elements : forall ss, map se_element (shapes_of ss) = seq 0 (length (all_elements base ss)).
Proof.
  intros ss. induction ss as [|s ss IH] using rev_ind; [reflexivity|].
  rewrite shapes_of_snoc, map_app, IH, map_map. cbn. rewrite map_id.
  rewrite all_elements_snoc, app_length, seq_app. reflexivity.
Qed.

Lemma shapes_length : forall ss, length (shapes_of ss) = length (all_elements base ss).
Proof. intros ss. rewrite <- (map_length se_element), shapes_elements. apply seq_length. Qed.

Definition expand {A B} (f : A -> B) (t : list ((nat * nat) * A)) : list (nat * B) :=
  flat_map (fun '((lo, hi), a) => map (fun i => (i, f a)) (range lo hi)) t.

Lemma expand_app : forall A B (f : A -> B) t u, expand f (t ++ u) = expand f t ++ expand f u.
Proof. intros. apply flat_map_app. Qed.

Lemma range_split : forall lo hi k, lo <= hi -> range lo (hi + k) = range lo hi ++ seq hi k.
Proof.
  intros lo hi k H. unfold range. replace (hi + k - lo) with ((hi - lo) + k) by lia.
  rewrite seq_app. do 2 f_equal. lia.
Qed.

Lemma range_empty : forall n, range n n = [].
Proof. intros n. unfold range. now rewrite Nat.sub_diag. Qed.

Definition span (p : nat * nat) : list nat := range (fst p) (snd p).

Definition final_groups (g : group_state) : list ((nat * nat) * (nat * nat)) :=
  group_entry_table g ++ [((min_element_group_index g, max_element_group_index g),
                           (min_group_index g, max_group_index g))].

Definition final_smoothing (s : smoothing_state) : list ((nat * nat) * nat) :=
  smoothing_group_entry_table s ++
    [((min_element_smoothing_group_index s, max_element_smoothing_group_index s), smoothing_group_index s)].

Record group_inv (ss : list statement) (g : group_state) : Prop := {
  gi_groups : groups g = all_groups ss;
  gi_max : max_element_group_index g = length (all_elements base ss);
  gi_min : min_element_group_index g <= max_element_group_index g;
  gi_top : max_group_index g = length (all_groups ss);
  gi_expand : expand span (final_groups g) = map (fun e => (se_element e, se_groups e)) (shapes_of ss);
  gi_none : all_groups ss = [] ->
    group_entry_table g = [] /\ min_element_group_index g = 0 /\ max_element_group_index g = 0 /\
    min_group_index g = 0 /\ groups_at ss = [0];
  gi_some : all_groups ss <> [] -> range (min_group_index g) (max_group_index g) = groups_at ss
}.

Record smoothing_inv (ss : list statement) (s : smoothing_state) : Prop := {
  si_groups : smoothing_groups s = all_smoothing_groups ss;
  si_max : max_element_smoothing_group_index s = length (all_elements base ss);
  si_min : min_element_smoothing_group_index s <= max_element_smoothing_group_index s;
  si_top : smoothing_group_index s = smoothing_at ss;
  si_expand : expand (fun k => k) (final_smoothing s) =
    map (fun e => (se_element e, se_smoothing_group e)) (shapes_of ss);
  si_none : all_smoothing_groups ss = [] ->
    smoothing_group_entry_table s = [] /\ min_element_smoothing_group_index s = 0 /\
    max_element_smoothing_group_index s = 0
}.

Lemma expand_grow : forall A B (f : A -> B) t lo hi a k, lo <= hi ->
  expand f (t ++ [((lo, hi + k), a)]) = expand f (t ++ [((lo, hi), a)]) ++ map (fun i => (i, f a)) (seq hi k).
Proof.
  intros. rewrite !expand_app. cbn. rewrite range_split by auto.
  rewrite map_app, !app_nil_r, app_assoc. reflexivity.
Qed.

Lemma group_inv_other : forall ss s g,
  is_element s = false -> names_of s = [] -> (forall names, s <> SGroup names) ->
  group_inv ss g -> group_inv (ss ++ [s]) g.
Proof.
  intros ss s g He Hn Hg [H1 H2 H3 H4 H5 H6 H7].
  assert (EA : all_groups (ss ++ [s]) = all_groups ss) by (rewrite all_groups_snoc, He, Hn; apply app_nil_r).
  assert (EE : all_elements base (ss ++ [s]) = all_elements base ss)
    by (rewrite all_elements_snoc, elements_of_other by auto; apply app_nil_r).
  assert (ES : shapes_of (ss ++ [s]) = shapes_of ss)
    by (rewrite shapes_of_snoc, (elements_of_other base s He); apply app_nil_r).
  assert (EG : groups_at (ss ++ [s]) = groups_at ss)
    by (rewrite groups_at_snoc; destruct s; auto; congruence).
  split; rewrite ?EA, ?EE, ?ES, ?EG; auto.
Qed.

Lemma group_inv_names : forall ss names g,
  group_inv ss g -> group_inv (ss ++ [SGroup names]) (group_names names g).
Proof.
  intros ss names g [H1 H2 H3 H4 H5 H6 H7].
  assert (EA : all_groups (ss ++ [SGroup names]) = all_groups ss ++ names) by (rewrite all_groups_snoc; reflexivity).
  assert (EE : all_elements base (ss ++ [SGroup names]) = all_elements base ss)
    by (rewrite all_elements_snoc; apply app_nil_r).
  assert (ES : shapes_of (ss ++ [SGroup names]) = shapes_of ss)
    by (rewrite shapes_of_snoc; apply app_nil_r).
  assert (EG : groups_at (ss ++ [SGroup names]) =
    match all_groups ss, names with [], [] => [0] | d, _ => seq (length d) (length names) end)
    by (rewrite groups_at_snoc; reflexivity).
  unfold group_names. rewrite H1. destruct (all_groups ss) as [|x xs] eqn:Eg.
  - destruct (H6 eq_refl) as (K1 & K2 & K3 & K4 & K5).
    split; cbn [groups group_entry_table min_element_group_index max_element_group_index min_group_index max_group_index];
      rewrite ?EA, ?EE, ?ES, ?EG; auto.
    + rewrite H4. reflexivity.
    + unfold final_groups in *. cbn. rewrite <- H5, K1, K2, K3. reflexivity.
    + cbn. intros ->. auto 10.
    + cbn. intros Hn. rewrite K4, H4. cbn. unfold range. rewrite Nat.sub_0_r.
      destruct names; [congruence|reflexivity].
  - split; cbn [groups group_entry_table min_element_group_index max_element_group_index min_group_index max_group_index];
      rewrite ?EA, ?EE, ?ES, ?EG; auto.
    + rewrite app_length, H4. reflexivity.
    + rewrite <- H5. unfold final_groups at 1.
      cbn [group_entry_table min_element_group_index max_element_group_index min_group_index max_group_index].
      rewrite expand_app. unfold expand at 2. cbn [flat_map]. rewrite range_empty.
      cbn [map app]. apply app_nil_r.
    + discriminate.
    + intros _. rewrite H4. unfold range. f_equal. lia.
Qed.

Lemma group_inv_elements : forall ss s g, is_element s = true ->
  group_inv ss g -> group_inv (ss ++ [s]) (group_elements (length (elements_of base s)) g).
Proof.
  intros ss s g He [H1 H2 H3 H4 H5 H6 H7].
  assert (EA : all_groups (ss ++ [s]) = match all_groups ss with [] => [lit "default"] | l => l end)
    by (now rewrite all_groups_snoc, He).
  assert (EE : length (all_elements base (ss ++ [s])) = length (all_elements base ss) + length (elements_of base s))
    by (now rewrite all_elements_snoc, app_length).
  assert (EG : groups_at (ss ++ [s]) = groups_at ss)
    by (rewrite groups_at_snoc; destruct s; auto; discriminate).
  unfold group_elements. rewrite H1. destruct (all_groups ss) as [|x xs] eqn:Eg.
  - destruct (H6 eq_refl) as (K1 & K2 & K3 & K4 & K5).
    split; cbn [groups group_entry_table min_element_group_index max_element_group_index min_group_index max_group_index];
      rewrite ?EA, ?EE, ?EG; try lia; auto.
    + unfold final_groups in *. cbn [groups group_entry_table min_element_group_index max_element_group_index min_group_index max_group_index].
      rewrite expand_grow by auto. rewrite shapes_of_snoc, map_app, map_map. cbn [se_element se_groups].
      rewrite <- H2, <- H5, K1, K2, K3, K5. reflexivity.
    + discriminate.
  - split; cbn [groups group_entry_table min_element_group_index max_element_group_index min_group_index max_group_index];
      rewrite ?EA, ?EE, ?EG; try lia; auto.
    + unfold final_groups in *. cbn [groups group_entry_table min_element_group_index max_element_group_index min_group_index max_group_index].
      rewrite expand_grow by auto. rewrite shapes_of_snoc, map_app, map_map. cbn [se_element se_groups].
      rewrite <- H2, <- H5, <- H7 by discriminate. reflexivity.
    + discriminate.
Qed.

Lemma smoothing_inv_other : forall ss s g,
  is_element s = false -> smoothing_of s = [] ->
  smoothing_inv ss g -> smoothing_inv (ss ++ [s]) g.
Proof.
  intros ss s g He Hn [H1 H2 H3 H4 H5 H6].
  assert (EA : all_smoothing_groups (ss ++ [s]) = all_smoothing_groups ss)
    by (rewrite all_smoothing_groups_snoc, He, Hn; apply app_nil_r).
  assert (EE : all_elements base (ss ++ [s]) = all_elements base ss)
    by (rewrite all_elements_snoc, elements_of_other by auto; apply app_nil_r).
  assert (ES : shapes_of (ss ++ [s]) = shapes_of ss)
    by (rewrite shapes_of_snoc, (elements_of_other base s He); apply app_nil_r).
  assert (EG : smoothing_at (ss ++ [s]) = smoothing_at ss) by (unfold smoothing_at; now rewrite EA).
  split; rewrite ?EA, ?EE, ?ES, ?EG; auto.
Qed.

Lemma smoothing_inv_number : forall ss n g,
  smoothing_inv ss g -> smoothing_inv (ss ++ [SSmooth n]) (smooth_number n g).
Proof.
  intros ss n g [H1 H2 H3 H4 H5 H6].
  assert (EA : all_smoothing_groups (ss ++ [SSmooth n]) = all_smoothing_groups ss ++ [n])
    by (rewrite all_smoothing_groups_snoc; reflexivity).
  assert (EE : all_elements base (ss ++ [SSmooth n]) = all_elements base ss)
    by (rewrite all_elements_snoc; apply app_nil_r).
  assert (ES : shapes_of (ss ++ [SSmooth n]) = shapes_of ss)
    by (rewrite shapes_of_snoc; apply app_nil_r).
  assert (EG : smoothing_at (ss ++ [SSmooth n]) = length (all_smoothing_groups ss)).
  { unfold smoothing_at. rewrite EA, app_length. cbn. lia. }
  unfold smooth_number. rewrite H1. destruct (all_smoothing_groups ss) as [|x xs] eqn:Eg.
  - destruct (H6 eq_refl) as (K1 & K2 & K3).
    split; cbn [smoothing_groups smoothing_group_entry_table min_element_smoothing_group_index max_element_smoothing_group_index smoothing_group_index]; rewrite ?EA, ?EE, ?ES, ?EG; try (intros; discriminate); auto.
    + unfold final_smoothing in *. cbn. rewrite <- H5, K1, K2, K3. reflexivity.
  - split; cbn [smoothing_groups smoothing_group_entry_table min_element_smoothing_group_index max_element_smoothing_group_index smoothing_group_index]; rewrite ?EA, ?EE, ?ES, ?EG; try (intros; discriminate); auto.
    + rewrite H4. unfold smoothing_at. rewrite Eg. cbn. lia.
    + rewrite <- H5. unfold final_smoothing at 1.
      cbn [smoothing_group_entry_table min_element_smoothing_group_index max_element_smoothing_group_index smoothing_group_index].
      rewrite expand_app. unfold expand at 2. cbn [flat_map]. rewrite range_empty.
      cbn [map app]. apply app_nil_r.
Qed.

Lemma smoothing_inv_elements : forall ss s g, is_element s = true ->
  smoothing_inv ss g -> smoothing_inv (ss ++ [s]) (smooth_elements (length (elements_of base s)) g).
Proof.
  intros ss s g He [H1 H2 H3 H4 H5 H6].
  assert (EA : all_smoothing_groups (ss ++ [s]) = match all_smoothing_groups ss with [] => [0%N] | l => l end)
    by (now rewrite all_smoothing_groups_snoc, He).
  assert (EE : length (all_elements base (ss ++ [s])) = length (all_elements base ss) + length (elements_of base s))
    by (now rewrite all_elements_snoc, app_length).
  assert (EG : smoothing_at (ss ++ [s]) = smoothing_at ss).
  { unfold smoothing_at. rewrite EA. now destruct (all_smoothing_groups ss). }
  unfold smooth_elements. rewrite H1. destruct (all_smoothing_groups ss) as [|x xs] eqn:Eg.
  - destruct (H6 eq_refl) as (K1 & K2 & K3). assert (K4 : smoothing_at ss = 0) by (unfold smoothing_at; now rewrite Eg).
    split; cbn [smoothing_groups smoothing_group_entry_table min_element_smoothing_group_index max_element_smoothing_group_index smoothing_group_index];
      rewrite ?EA, ?EE, ?EG; try lia; auto.
    + unfold final_smoothing in *. cbn [smoothing_groups smoothing_group_entry_table min_element_smoothing_group_index max_element_smoothing_group_index smoothing_group_index].
      rewrite expand_grow by auto. rewrite shapes_of_snoc, map_app, map_map. cbn [se_element se_smoothing_group].
      rewrite <- H2, <- H5, K1, K2, K3, K4. reflexivity.
    + discriminate.
  - split; cbn [smoothing_groups smoothing_group_entry_table min_element_smoothing_group_index max_element_smoothing_group_index smoothing_group_index];
      rewrite ?EA, ?EE, ?EG; try lia; auto.
    + unfold final_smoothing in *. cbn [smoothing_groups smoothing_group_entry_table min_element_smoothing_group_index max_element_smoothing_group_index smoothing_group_index].
      rewrite expand_grow by auto. rewrite shapes_of_snoc, map_app, map_map. cbn [se_element se_smoothing_group].
      rewrite <- H2, <- H5, <- H4. reflexivity.
    + discriminate.
Qed.

(** * Materials *)

Lemma segments_snoc : forall ss s m i n,
  exists D mat lo k,
    segments m base ss i n = D ++ [mkGeometry mat (seq lo k)] /\
    lo + k = i + n + length (all_elements base ss) /\
    segments m base (ss ++ [s]) i n =
      match s with
      | SUse x => D ++ [mkGeometry mat (seq lo k); mkGeometry (Some x) (seq (lo + k) 0)]
      | _ => D ++ [mkGeometry mat (seq lo (k + length (elements_of base s)))]
      end.
Proof.
  induction ss as [|a ss IH]; intros s m i n.
  - exists [], m, i, n. cbn. split; [reflexivity|]. split; [lia|]. destruct s; cbn; rewrite ?Nat.add_0_r; reflexivity.
  - assert (Hc : (exists x, a = SUse x) \/ forall tl i n, segments m base (a :: tl) i n = segments m base tl i (n + length (elements_of base a))).
    { destruct a; try (right; intros; reflexivity). left. eauto. }
    unfold all_elements. cbn [flat_map app].
    destruct Hc as [[x ->]|Hc].
    + destruct (IH s (Some x) (i + n) 0) as (D & mat & lo & k & E1 & E2 & E3).
      exists (mkGeometry m (seq i n) :: D), mat, lo, k. cbn [segments]. rewrite E1, E3. unfold all_elements in E2. cbn [elements_of app].
      split; [reflexivity|]. split; [lia|]. now destruct s.
    + destruct (IH s m i (n + length (elements_of base a))) as (D & mat & lo & k & E1 & E2 & E3).
      exists D, mat, lo, k. rewrite !Hc, E1, E3. unfold all_elements in E2. rewrite app_length.
      split; [reflexivity|]. split; [lia|]. reflexivity.
Qed.

Definition nonempty (g : geometry) : bool := match shapes g with [] => false | _ => true end.

Lemma drop_empty_snoc : forall D g, drop_empty (D ++ [g]) = filter nonempty D ++ [g].
Proof.
  induction D as [|d D IH]; intros g; [reflexivity|].
  cbn [app filter]. assert (E : drop_empty (d :: D ++ [g]) = match shapes d with [] => drop_empty (D ++ [g]) | _ => d :: drop_empty (D ++ [g]) end).
  { destruct D; reflexivity. }
  rewrite E, IH. destruct d as [m [|x xs]]; reflexivity.
Qed.

Definition as_geometry (names : list (option bytes)) (e : (nat * nat) * nat) (g : geometry) : Prop :=
  nth_error names (snd e) = Some (material_name g) /\ range (fst (fst e)) (snd (fst e)) = shapes g.

Record material_inv (ss : list statement) (m : material_state) : Prop := {
  mi_max : max_element_material_name_index m = length (all_elements base ss);
  mi_min : min_element_material_name_index m <= max_element_material_name_index m;
  mi_top : material_name_index m = pred (length (material_names m));
  mi_names : material_names m = [] <-> ~ drawable ([], ss);
  mi_segments : exists D mat,
    segments None base ss 0 0 =
      D ++ [mkGeometry mat (range (min_element_material_name_index m) (max_element_material_name_index m))] /\
    Forall2 (as_geometry (material_names m)) (material_name_entry_table m) (filter nonempty D) /\
    (material_names m = [] -> mat = None /\ material_name_entry_table m = [] /\ min_element_material_name_index m = 0 /\
                              max_element_material_name_index m = 0) /\
    (material_names m <> [] -> nth_error (material_names m) (material_name_index m) = Some mat)
}.

Lemma drawable_snoc : forall ss s, drawable ([], ss ++ [s]) <->
  drawable ([], ss) \/ is_element s = true \/ exists m, s = SUse m.
Proof.
  intros ss s. unfold drawable. cbn [snd]. split.
  - intros (x & H & Hx). apply in_app_iff in H. destruct H as [H|[->|[]]]; eauto.
  - intros [(x & H & Hx)|H].
    + exists x. split; [apply in_app_iff; auto|auto].
    + exists s. split; [apply in_app_iff; cbn; auto|auto].
Qed.

Lemma Forall2_weaken : forall A B (P Q : A -> B -> Prop) l m,
  (forall a b, P a b -> Q a b) -> Forall2 P l m -> Forall2 Q l m.
Proof. intros A B P Q l m H HF. induction HF; auto. Qed.

Lemma as_geometry_more : forall names x e g, as_geometry names e g -> as_geometry (names ++ [x]) e g.
Proof.
  intros names x e g [H1 H2]. split; auto. rewrite nth_error_app1; auto.
  apply nth_error_Some. congruence.
Qed.

Lemma last_segment : forall D m (g : geometry) D' g', D ++ [g] = D' ++ [g'] -> m = D -> D' = m /\ g' = g.
Proof. intros. subst. apply app_inj_tail in H. destruct H. auto. Qed.

Lemma segments_other : forall ss s, is_element s = false -> (forall x, s <> SUse x) ->
  segments None base (ss ++ [s]) 0 0 = segments None base ss 0 0.
Proof.
  intros ss s He Hu. destruct (segments_snoc ss s None 0 0) as (D & mat & lo & k & E1 & E2 & E3).
  rewrite E3, E1. destruct s; try discriminate; cbn; rewrite ?Nat.add_0_r; auto. exfalso. eapply Hu. reflexivity.
Qed.

Lemma material_inv_other : forall ss s m,
  is_element s = false -> (forall x, s <> SUse x) -> material_inv ss m -> material_inv (ss ++ [s]) m.
Proof.
  intros ss s m He Hu [H1 H2 H3 H4 H5].
  assert (EE : all_elements base (ss ++ [s]) = all_elements base ss)
    by (rewrite all_elements_snoc, elements_of_other by auto; apply app_nil_r).
  split; rewrite ?EE; auto.
  - rewrite drawable_snoc, H4. rewrite He. split; intros H; [|tauto].
    intros [K|[K|[x K]]]; [auto|discriminate|]. eapply Hu. eauto.
  - rewrite segments_other by auto. exact H5.
Qed.

Lemma segments_last : forall ss D mat lo hi, lo <= hi -> hi = length (all_elements base ss) ->
  segments None base ss 0 0 = D ++ [mkGeometry mat (range lo hi)] ->
  forall s, segments None base (ss ++ [s]) 0 0 =
    match s with
    | SUse x => (D ++ [mkGeometry mat (range lo hi)]) ++ [mkGeometry (Some x) []]
    | _ => D ++ [mkGeometry mat (range lo (hi + length (elements_of base s)))]
    end.
Proof.
  intros ss D mat lo hi Hle Hhi E s.
  destruct (segments_snoc ss s None 0 0) as (D' & mat' & lo' & k' & E1 & E2 & E3).
  rewrite E in E1. apply app_inj_tail in E1. destruct E1 as [<- Eg]. inversion Eg; subst mat'.
  assert (Hk : k' = hi - lo). { apply (f_equal (@length nat)) in H1. unfold range in H1. rewrite !seq_length in H1. auto. }
  assert (Hlo : lo' = lo) by lia.
  rewrite E3. subst lo' k'. unfold range. destruct s; cbn [seq]; rewrite <- ?app_assoc; cbn [app]; auto;
    do 3 f_equal; f_equal; lia.
Qed.

Lemma material_inv_use : forall ss x m,
  material_inv ss m -> material_inv (ss ++ [SUse x]) (use_material x m).
Proof.
  intros ss x m [H1 H2 H3 H4 (D & mat & E & HF & HN & HS)].
  pose proof (segments_last ss D mat _ _ H2 H1 E (SUse x)) as Es. cbn in Es.
  assert (EE : all_elements base (ss ++ [SUse x]) = all_elements base ss)
    by (rewrite all_elements_snoc; apply app_nil_r).
  split; cbn [use_material max_element_material_name_index min_element_material_name_index material_name_index material_names material_name_entry_table];
    rewrite ?EE; auto.
  - rewrite app_length, H3. cbn. destruct (material_names m); cbn; lia.
  - split.
    + intros H. destruct (material_names m); discriminate.
    + intros H. exfalso. apply H. apply drawable_snoc. eauto.
  - exists (D ++ [mkGeometry mat (range (min_element_material_name_index m) (max_element_material_name_index m))]), (Some x).
    rewrite range_empty. split; [exact Es|]. split.
    + rewrite filter_app. cbn [filter nonempty shapes].
      destruct (Nat.eqb_spec (min_element_material_name_index m) (max_element_material_name_index m)) as [Eq|Ne].
      * rewrite Eq, range_empty, app_nil_r. eapply Forall2_weaken; [|exact HF]. intros; now apply as_geometry_more.
      * assert (Hr : exists y ys, range (min_element_material_name_index m) (max_element_material_name_index m) = y :: ys).
        { unfold range. destruct (max_element_material_name_index m - min_element_material_name_index m) eqn:Ed; [lia|]. cbn. eauto. }
        destruct Hr as (y & ys & Hr). rewrite Hr. apply Forall2_app.
        { eapply Forall2_weaken; [|exact HF]. intros; now apply as_geometry_more. }
        constructor; [|constructor]. apply as_geometry_more. split; cbn; [|auto].
        apply HS. intros Hn. destruct (HN Hn) as (_ & _ & K1 & K2). congruence.
    + split; [intros H; destruct (material_names m); discriminate|]. intros _.
      assert (Hi : material_name_index m = pred (length (material_names m))) by exact H3.
      rewrite nth_error_app2 by (destruct (material_names m); cbn in *; lia).
      destruct (material_names m) as [|y ys]; cbn in *.
      * rewrite Hi. reflexivity.
      * rewrite Hi. replace (length ys + 1 - S (length ys)) with 0 by lia. reflexivity.
Qed.

Lemma material_inv_elements : forall ss s m, is_element s = true ->
  material_inv ss m -> material_inv (ss ++ [s]) (material_elements (length (elements_of base s)) m).
Proof.
  intros ss s m He [H1 H2 H3 H4 (D & mat & E & HF & HN & HS)].
  assert (EE : length (all_elements base (ss ++ [s])) = length (all_elements base ss) + length (elements_of base s))
    by (now rewrite all_elements_snoc, app_length).
  assert (Es : segments None base (ss ++ [s]) 0 0 =
    D ++ [mkGeometry mat (range (min_element_material_name_index m) (max_element_material_name_index m + length (elements_of base s)))]).
  { rewrite (segments_last ss D mat _ _ H2 H1 E s). destruct s; try discriminate; reflexivity. }
  assert (Hdraw : drawable ([], ss ++ [s])) by (apply drawable_snoc; auto).
  unfold material_elements. destruct (material_names m) as [|y ys] eqn:En.
  - destruct (HN eq_refl) as (K1 & K2 & K3 & K4).
    split; cbn [max_element_material_name_index min_element_material_name_index material_name_index material_names material_name_entry_table];
      rewrite ?EE; try lia; auto.
    + split; [discriminate|tauto].
    + exists D, mat. split; [exact Es|]. split; [|split; [discriminate|intros _; cbn; congruence]].
      rewrite K2 in *. inversion HF. constructor.
  - split; cbn [max_element_material_name_index min_element_material_name_index material_name_index material_names material_name_entry_table];
      rewrite ?EE; try lia; rewrite ?En; auto.
    + split; [discriminate|tauto].
    + exists D, mat. split; [exact Es|]. split; [exact HF|]. split; [discriminate|]. exact HS.
Qed.

(** * The state *)

Record state_inv (ss : list statement) (st : object_state) : Prop := {
  st_vertices : vertices (os_data st) = all_vertices ss;
  st_textures : texture_vertices (os_data st) = all_texture_vertices ss;
  st_normals : normal_vertices (os_data st) = all_normals ss;
  st_elements : elements (os_data st) = all_elements base ss;
  st_groups : group_inv ss (os_groups st);
  st_smoothing : smoothing_inv ss (os_smoothing st);
  st_material : material_inv ss (os_material st)
}.

Lemma flat_map_snoc : forall A B (f : A -> list B) l x, flat_map f (l ++ [x]) = flat_map f l ++ f x.
Proof. intros. rewrite flat_map_app. cbn. now rewrite app_nil_r. Qed.

Lemma state_inv_apply : forall ss s st, base_of st = base ->
  state_inv ss st -> state_inv (ss ++ [s]) (apply_statement s st).
Proof.
  intros ss s st Hb [H1 H2 H3 H4 H5 H6 H7].
  unfold all_vertices, all_texture_vertices, all_normals, all_elements in *.
  destruct s; cbn [apply_statement]; unfold push_element; rewrite ?Hb; split; unfold all_vertices, all_texture_vertices, all_normals, all_elements;
    cbn [os_data os_groups os_smoothing os_material os_ranges set_ranges set_data set_groups set_smoothing set_material
         vertices texture_vertices normal_vertices ObjModel.elements];
    rewrite ?flat_map_snoc; cbn [elements_of]; rewrite ?app_nil_r; try congruence;
    try (apply group_inv_other; [reflexivity|reflexivity|discriminate|assumption]);
    try (apply smoothing_inv_other; [reflexivity|reflexivity|assumption]);
    try (apply material_inv_other; [reflexivity|discriminate|assumption]);
    try (now apply group_inv_names); try (now apply smoothing_inv_number); try (now apply material_inv_use).
  all: first
    [ apply (group_inv_elements _ (SPoint ks)); [reflexivity|assumption]
    | apply (smoothing_inv_elements _ (SPoint ks)); [reflexivity|assumption]
    | apply (material_inv_elements _ (SPoint ks)); [reflexivity|assumption]
    | apply (group_inv_elements _ (SLine rs)); [reflexivity|assumption]
    | apply (smoothing_inv_elements _ (SLine rs)); [reflexivity|assumption]
    | apply (material_inv_elements _ (SLine rs)); [reflexivity|assumption]
    | apply (group_inv_elements _ (SFace rs)); [reflexivity|assumption]
    | apply (smoothing_inv_elements _ (SFace rs)); [reflexivity|assumption]
    | apply (material_inv_elements _ (SFace rs)); [reflexivity|assumption] ].
Qed.

Lemma state_inv_new : forall r, state_inv [] (object_state_new r).
Proof.
  intros r. split; try reflexivity.
  - split; try reflexivity; try (cbn; lia); cbn; auto 10; try congruence.
  - split; try reflexivity; try (cbn; lia). cbn. auto.
  - split; try reflexivity; try (cbn; lia).
    + split; [|reflexivity]. intros _ (s & [] & _).
    + exists [], None. repeat split; auto. constructor. cbn. congruence.
Qed.

Lemma state_inv_run : forall ss r, base_of (object_state_new r) = base ->
  state_inv ss (run_statements ss (object_state_new r)).
Proof.
  intros ss r Hb. induction ss as [|s ss IH] using rev_ind; [apply state_inv_new|].
  rewrite run_snoc. apply state_inv_apply; auto. now rewrite base_run.
Qed.

(** * Shape entries and geometries *)

Lemma returns_for_each_inv : forall K A X (P : A -> Prop) (body : A -> X -> M list_source K A) (f : A -> X -> A) xs a,
  (forall a x, In x xs -> P a -> returns (body a x) (f a x) /\ P (f a x)) -> P a ->
  returns (for_each xs body a) (fold_left f xs a) /\ P (fold_left f xs a).
Proof.
  intros K A X P body f xs. induction xs as [|x xs IH]; intros a H Ha; cbn.
  - split; [apply returns_ret|auto].
  - destruct (H a x (or_introl eq_refl) Ha) as [H1 H2].
    destruct (IH (f a x)) as [H3 H4]; auto. { intros. apply H; auto. now right. }
    split; auto. eapply returns_bind; eauto.
Qed.

Lemma returns_push_all : forall K X B (f : X -> B) xs acc,
  returns (K := K) (for_each xs (fun t x => ret (t ++ [f x])) acc) (acc ++ map f xs).
Proof.
  intros K X B f xs. induction xs as [|x xs IH]; intros acc.
  - cbn. rewrite app_nil_r. apply returns_ret.
  - cbn [for_each map]. eapply returns_bind; [apply returns_ret|].
    replace (acc ++ f x :: map f xs) with ((acc ++ [f x]) ++ map f xs) by (now rewrite <- app_assoc). apply IH.
Qed.

Definition zero_entry (p : nat * list nat) : shape_entry := mkShapeEntry (fst p) (snd p) 0.

Lemma returns_group_table : forall K (tbl : list ((nat * nat) * (nat * nat))) acc,
  returns (K := K) (for_each tbl (fun table '((lo, hi), (a, b)) =>
      for_each (range lo hi) (fun table i => ret (table ++ [mkShapeEntry i (range a b) 0])) table) acc)
    (acc ++ map zero_entry (expand span tbl)).
Proof.
  intros K tbl. induction tbl as [|[[lo hi] [a b]] tbl IH]; intros acc.
  - cbn. rewrite app_nil_r. apply returns_ret.
  - cbn [for_each]. eapply returns_bind; [apply returns_push_all|].
    unfold expand. cbn [flat_map]. rewrite map_app, map_map, app_assoc. apply IH.
Qed.

Definition set_entry (t : list shape_entry) (p : nat * nat) : list shape_entry := set_smoothing_at t (fst p) (snd p).

Lemma set_length : forall t i v, length (set_smoothing_at t i v) = length t.
Proof. induction t as [|e t IH]; intros [|i] v; cbn; auto. Qed.

Lemma returns_smoothing_table : forall K (tbl : list ((nat * nat) * nat)) n acc,
  (forall p, In p (expand (fun k => k) tbl) -> fst p < n) -> length acc = n ->
  returns (K := K) (for_each tbl (fun table '((lo, hi), k) =>
      for_each (range lo hi) (fun table i => ParserBase.index table i ;;; ret (set_smoothing_at table i k)) table) acc)
    (fold_left set_entry (expand (fun k => k) tbl) acc).
Proof.
  intros K tbl. induction tbl as [|[[lo hi] k] tbl IH]; intros n acc Hn Hl.
  - apply returns_ret.
  - unfold expand. cbn [for_each flat_map]. rewrite fold_left_app.
    assert (H : returns (K := K) (for_each (range lo hi) (fun table i => ParserBase.index table i ;;; ret (set_smoothing_at table i k)) acc)
                  (fold_left (fun t i => set_smoothing_at t i k) (range lo hi) acc) /\
                length (fold_left (fun t i => set_smoothing_at t i k) (range lo hi) acc) = n).
    { apply (returns_for_each_inv K _ _ (fun t => length t = n)); auto.
      intros t i Hi Ht. split; [|now rewrite set_length].
      destruct (nth_error t i) as [e|] eqn:En.
      - eapply returns_bind; [apply returns_index; exact En|apply returns_ret].
      - exfalso. apply nth_error_None in En.
        assert (i < n); [|lia]. apply (Hn (i, k)). unfold expand. cbn [flat_map]. apply in_app_iff. left.
        apply in_map_iff. eauto. }
    destruct H as [H1 H2].
    replace (fold_left set_entry (map (fun i => (i, k)) (range lo hi)) acc)
      with (fold_left (fun t i => set_smoothing_at t i k) (range lo hi) acc).
    + eapply returns_bind; [exact H1|]. apply (IH n); auto.
      intros p Hp. apply Hn. unfold expand. cbn [flat_map]. apply in_app_iff. auto.
    + clear. generalize dependent acc. induction (range lo hi) as [|i l IH]; intros acc; cbn; auto.
Qed.

Lemma set_here : forall pre e post v, set_smoothing_at (pre ++ e :: post) (length pre) v =
  pre ++ mkShapeEntry (se_element e) (se_groups e) v :: post.
Proof. induction pre as [|x pre IH]; intros; cbn; [reflexivity|]. now rewrite IH. Qed.

Lemma set_all : forall es pre, map se_element es = seq (length pre) (length es) ->
  fold_left set_entry (map (fun e => (se_element e, se_smoothing_group e)) es)
    (pre ++ map zero_entry (map (fun e => (se_element e, se_groups e)) es)) = pre ++ es.
Proof.
  induction es as [|e es IH]; intros pre H; [reflexivity|].
  cbn [map seq length fold_left] in *. injection H as H1 H2.
  unfold set_entry at 2. cbn [fst snd]. rewrite H1, set_here. cbn [zero_entry fst snd se_element se_groups].
  replace (pre ++ mkShapeEntry _ _ _ :: map zero_entry (map (fun e => (se_element e, se_groups e)) es))
    with ((pre ++ [e]) ++ map zero_entry (map (fun e => (se_element e, se_groups e)) es)).
  - rewrite IH. + now rewrite <- app_assoc. + rewrite H2. f_equal. rewrite app_length. cbn. lia.
  - rewrite <- app_assoc. cbn [app]. rewrite <- H1. destruct e; reflexivity.
Qed.

Lemma returns_assert : forall K dbg b, b = true -> returns (K := K) (debug_assert dbg b) tt.
Proof. intros K dbg b -> p. unfold debug_assert. destruct dbg; reflexivity. Qed.

Lemma returns_shapes : forall dbg ss st, state_inv ss st ->
  returns (parse_shape_entries dbg (elements (os_data st)) (final_groups (os_groups st)) (final_smoothing (os_smoothing st)))
    (shapes_of ss).
Proof.
  intros dbg ss st H. unfold parse_shape_entries.
  eapply returns_bind; [apply returns_group_table|]. rewrite (gi_expand _ _ (st_groups _ _ H)). cbn [app].
  set (t1 := map zero_entry _).
  assert (Hl : length t1 = length (all_elements base ss)).
  { unfold t1. rewrite !map_length. apply shapes_length. }
  eapply returns_bind; [apply returns_assert; apply Nat.eqb_eq; rewrite (st_elements _ _ H); auto|].
  assert (Hs : fold_left set_entry (expand (fun k => k) (final_smoothing (os_smoothing st))) t1 = shapes_of ss).
  { rewrite (si_expand _ _ (st_smoothing _ _ H)). apply (set_all _ []).
    rewrite shapes_elements, shapes_length. reflexivity. }
  eapply returns_bind.
  { apply (returns_smoothing_table _ _ (length (all_elements base ss))); [|auto].
    rewrite (si_expand _ _ (st_smoothing _ _ H)). intros p Hp. apply in_map_iff in Hp. destruct Hp as (e & <- & He). cbn.
    apply (in_map se_element) in He. rewrite shapes_elements in He. apply in_seq in He. lia. }
  rewrite Hs.
  eapply returns_bind; [apply returns_assert; apply Nat.eqb_eq; rewrite (st_elements _ _ H), shapes_length; auto|].
  apply returns_ret.
Qed.

Definition final_materials (m : material_state) : list ((nat * nat) * nat) :=
  material_name_entry_table m ++
    [((min_element_material_name_index m, max_element_material_name_index m), material_name_index m)].

Lemma returns_geometry_table : forall names tbl gs acc, Forall2 (as_geometry names) tbl gs ->
  returns (for_each tbl (fun geometries '((lo, hi), k) =>
    let shapes := range lo hi in
    material_name <- ParserBase.index names k ;;
    ret (geometries ++ [mkGeometry material_name shapes])) acc : M list_source error_kind _) (acc ++ gs).
Proof.
  intros names tbl gs acc H. revert acc. induction H as [|[[lo hi] k] g tbl gs [H1 H2] HF IH]; intros acc.
  - rewrite app_nil_r. apply returns_ret.
  - cbn [for_each]. cbn [fst snd] in H1, H2. eapply returns_bind.
    { eapply returns_bind; [apply returns_index; exact H1|apply returns_ret]. }
    rewrite H2. replace (acc ++ g :: gs) with ((acc ++ [g]) ++ gs) by (now rewrite <- app_assoc).
    destruct g; cbn. apply IH.
Qed.

Lemma returns_geometries : forall ss m, material_inv ss m -> drawable ([], ss) ->
  returns (parse_geometries (final_materials m) (material_names m) : M list_source error_kind _)
    (drop_empty (segments None base ss 0 0)).
Proof.
  intros ss m [H1 H2 H3 H4 (D & mat & E & HF & HN & HS)] Hd.
  rewrite E, drop_empty_snoc. unfold parse_geometries.
  apply (returns_geometry_table _ _ _ []). apply Forall2_app; auto. constructor; [|constructor].
  split; cbn; auto. apply HS. intros Hn. apply H4 in Hn. auto.
Qed.

Lemma panics_geometries : forall ss m, material_inv ss m -> ~ drawable ([], ss) ->
  forall p, (parse_geometries (final_materials m) (material_names m) : M list_source error_kind _) p = (Panic PanicIndex, p).
Proof.
  intros ss m [H1 H2 H3 H4 (D & mat & E & HF & HN & HS)] Hd p.
  apply H4 in Hd. destruct (HN Hd) as (_ & K1 & K2 & K3). unfold final_materials. rewrite K1, Hd. cbn.
  unfold parse_geometries. cbn. unfold bind, ParserBase.index. destruct (material_name_index m); reflexivity.
Qed.

End After.
