(** Facts about the meaning of a file. *)
From Verif Require Import ObjModel ObjErrorSpec ObjView ObjState ObjFile.
Local Open Scope list_scope.

(** * Reading gives proper statements *)

Lemma refs_valid : forall base now ts rs rest, reads_refs base now ts rs rest -> Forall (ref_in_scope base now) rs.
Proof.
  intros base now ts rs rest H. induction H; auto. constructor; auto. apply H.
Qed.

Lemma statement_proper : forall base now ts s rest, reads_statement base now ts s rest -> proper base now s.
Proof.
  intros base now ts s rest H. inversion H; subst; cbn; auto.
  - split; auto. clear - H1. induction H1; auto. constructor; auto. apply H.
  - split; auto. split; auto. eapply refs_valid; eauto.
  - split; auto. split; auto. eapply refs_valid; eauto.
Qed.

Lemma body_proper : forall base now ts ss rest, reads_body base now ts ss rest -> proper_body base now ss.
Proof.
  intros base now ts ss rest H. induction H; cbn; auto. split; auto. eapply statement_proper; eauto.
Qed.

Lemma objects_proper : forall now ts os rest, reads_objects now ts os rest -> proper_objects now os.
Proof.
  intros now ts os rest H. induction H; cbn; auto. split; auto. eapply body_proper; eauto.
Qed.

Lemma file_proper : forall ts f rest, reads_file ts f rest -> proper_objects no_counts (file_objects f).
Proof.
  intros ts f rest H. inversion H; subst; cbn [file_objects].
  - eapply objects_proper; eauto.
  - cbn [proper_objects]. split; [eapply body_proper; eauto|eapply objects_proper; eauto].
Qed.

Lemma count_all_app : forall a b c, count_all c (a ++ b) = count_all (count_all c a) b.
Proof. intros. apply fold_left_app. Qed.

Lemma proper_at : forall base ss now before s after, proper_body base now ss ->
  ss = before ++ s :: after -> proper base (count_all now before) s.
Proof.
  intros base ss. induction ss as [|s' ss IH]; intros now before s after H E; [destruct before; discriminate|].
  destruct before as [|b before]; cbn in E; inversion E; subst.
  - apply H.
  - apply (IH (count now b) before s after); [apply H|reflexivity].
Qed.

(** * Elements *)

Lemma length_pairs : forall A (l : list A), length (pairs l) = length l - 1.
Proof. intros A l. unfold pairs. rewrite combine_length. destruct l; cbn [length tl]; lia. Qed.

Lemma nth_pairs : forall A (l : list A) i d, i < length l - 1 -> nth_error (pairs l) i = Some (nth i l d, nth (i + 1) l d).
Proof.
  intros A l i d. revert i. induction l as [|a l IH]; intros i Hi; [cbn in Hi; lia|].
  destruct l as [|b l]; [cbn in Hi; lia|].
  change (pairs (a :: b :: l)) with ((a, b) :: pairs (b :: l)).
  destruct i as [|i]; [reflexivity|]. cbn [nth_error]. rewrite IH by (cbn in *; lia). reflexivity.
Qed.

Lemma nth_error_ext : forall A (l m : list A), (forall i, nth_error l i = nth_error m i) -> l = m.
Proof.
  intros A l. induction l as [|a l IH]; intros [|b m] H; auto.
  - specialize (H 0). discriminate.
  - specialize (H 0). discriminate.
  - pose proof (H 0) as H0. inversion H0; subst. f_equal. apply IH. intros i. apply (H (S i)).
Qed.

Lemma nth_error_seq : forall n a i, nth_error (seq a n) i = if i <? n then Some (a + i) else None.
Proof.
  induction n as [|n IH]; intros a i; cbn [seq].
  - destruct i; reflexivity.
  - destruct i as [|i]; cbn [nth_error]; [now rewrite Nat.add_0_r|].
    rewrite IH. replace (S a + i) with (a + S i) by lia.
    destruct (Nat.ltb_spec i n), (Nat.ltb_spec (S i) (S n)); auto; lia.
Qed.

Lemma pairs_written : forall A (l : list A) d, pairs l = map (fun i => (nth i l d, nth (i + 1) l d)) (seq 0 (length l - 1)).
Proof.
  intros A l d. apply nth_error_ext. intros i. rewrite nth_error_map, nth_error_seq.
  destruct (Nat.ltb_spec i (length l - 1)) as [Hi|Hi]; cbn [option_map].
  - rewrite (nth_pairs _ l i d); auto.
  - apply nth_error_None. rewrite length_pairs. lia.
Qed.

Lemma map_pairs : forall A B (f : A -> B) l, pairs (map f l) = map (fun '(a, b) => (f a, f b)) (pairs l).
Proof.
  intros A B f l. induction l as [|a [|b l] IH]; try reflexivity.
  change (pairs (map f (a :: b :: l))) with ((f a, f b) :: pairs (map f (b :: l))). rewrite IH. reflexivity.
Qed.

(** The elements of a statement, reference by reference. *)
Lemma elements_written : forall base s,
  map draw_element (elements_of base s) = map (draw_map (local_ref base)) (written s).
Proof.
  intros base s. destruct s as [| | | | | |ks|rs|rs]; try reflexivity; cbn [elements_of written].
  - rewrite !map_map. apply map_ext. reflexivity.
  - rewrite map_pairs, map_map, map_map, (pairs_written _ rs (mkRef 0 None None)), !map_map.
    apply map_ext. reflexivity.
  - destruct rs as [|r rs]; [reflexivity|]. cbn [map].
    rewrite map_pairs, map_map, map_map, (pairs_written _ rs (mkRef 0 None None)), !map_map.
    replace (length (r :: rs) - 2) with (length rs - 1) by (cbn; lia).
    apply map_ext. intros i. cbn [draw_element draw_map]. unfold nth_ref.
    replace (i + 1) with (S i) by lia. replace (i + 2) with (S (S i)) by lia. reflexivity.
Qed.

Lemma length_written : forall base s, length (elements_of base s) = length (written s).
Proof. intros. rewrite <- (map_length draw_element), elements_written. apply map_length. Qed.

Lemma all_elements_written : forall base ss,
  map draw_element (all_elements base ss) = map (draw_map (local_ref base)) (flat_map written ss).
Proof.
  intros base ss. induction ss as [|s ss IH]; [reflexivity|].
  change (all_elements base (s :: ss)) with (elements_of base s ++ all_elements base ss).
  cbn [flat_map]. now rewrite !map_app, elements_written, IH.
Qed.

Lemma length_all_written : forall base ss, length (all_elements base ss) = length (flat_map written ss).
Proof. intros. rewrite <- (map_length draw_element), all_elements_written. apply map_length. Qed.

Lemma written_corners : forall s d r, In d (written s) -> In r (corners d) ->
  match s with
  | SPoint ks => exists k, In k ks /\ r = mkRef k None None
  | SLine rs | SFace rs => In r rs
  | _ => False
  end.
Proof.
  intros s d r Hd Hr. destruct s as [| | | | | |ks|rs|rs]; cbn [written] in Hd; try contradiction.
  - apply in_map_iff in Hd. destruct Hd as (k & <- & Hk). cbn in Hr. destruct Hr as [<-|[]]. eauto.
  - apply in_map_iff in Hd. destruct Hd as (i & <- & Hi). apply in_seq in Hi.
    unfold nth_ref in Hr. cbn in Hr. destruct Hr as [<-|[<-|[]]]; apply nth_In; lia.
  - apply in_map_iff in Hd. destruct Hd as (i & <- & Hi). apply in_seq in Hi.
    unfold nth_ref in Hr. cbn in Hr. destruct Hr as [<-|[<-|[<-|[]]]]; apply nth_In; lia.
Qed.

Lemma proper_corners : forall base now s d r, proper base now s -> In d (written s) -> In r (corners d) ->
  ref_in_scope base now r.
Proof.
  intros base now s d r Hp Hd Hr. pose proof (written_corners _ _ _ Hd Hr) as H.
  destruct s; try contradiction; cbn in Hp.
  - destruct H as (k & Hk & ->). destruct Hp as [_ HF]. rewrite Forall_forall in HF. split; cbn; auto.
  - destruct Hp as (_ & _ & HF). rewrite Forall_forall in HF. auto.
  - destruct Hp as (_ & _ & HF). rewrite Forall_forall in HF. auto.
Qed.

(** * Numbers *)

Lemma count_mono : forall ss c, n_v c <= n_v (count_all c ss) /\ n_t c <= n_t (count_all c ss) /\ n_n c <= n_n (count_all c ss).
Proof. intros. rewrite count_lengths. cbn. lia. Qed.

Lemma ref_scope_mono : forall base now now' r, ref_in_scope base now r ->
  n_v now <= n_v now' -> n_t now <= n_t now' -> n_n now <= n_n now' -> ref_in_scope base now' r.
Proof.
  intros base now now' r (H1 & H2 & H3) Hv Ht Hn. unfold ref_in_scope, part_in_scope, in_scope in *.
  repeat split; try lia; destruct (ref_t r), (ref_n r); lia.
Qed.

Lemma body_corners : forall base ss d r, proper_body base base ss ->
  In d (flat_map written ss) -> In r (corners d) -> ref_in_scope base (count_all base ss) r.
Proof.
  intros base ss d r Hp Hd Hr. apply in_flat_map in Hd. destruct Hd as (s & Hs & Hd).
  apply in_split in Hs. destruct Hs as (before & after & E).
  pose proof (proper_at _ _ _ _ _ _ Hp E) as Hps.
  eapply ref_scope_mono; [eapply proper_corners; eauto| | |];
    subst ss; rewrite count_all_app; apply count_mono.
Qed.

Definition data_of (o : bytes * list statement) (c : counts) (ob : object) : Prop :=
  ob = object_of c (fst o) (snd o).

Lemma number_skip : forall A (l1 l2 l3 : list A) k, in_scope (length l1) (length l1 + length l2) k ->
  number (l1 ++ l2 ++ l3) k = nth_error l2 (local_index (length l1) k) /\ local_index (length l1) k < length l2.
Proof.
  intros A l1 l2 l3 k H. unfold in_scope in H. destruct k as [|k]; [lia|]. unfold number, local_index.
  rewrite nth_error_app2 by lia. rewrite nth_error_app1 by lia. split; [f_equal; lia|lia].
Qed.

(** An object of a file: [position f i base] gives the counts in front of it. *)
Lemma objects_of_nth : forall os c i o, nth_error os i = Some o ->
  nth_error (objects_of c os) i = Some (object_of (count_objects c (firstn i os)) (fst o) (snd o)).
Proof.
  induction os as [|[n ss] os IH]; intros c i o H; [destruct i; discriminate|].
  destruct i as [|i]; cbn in *; [inversion H; subst; reflexivity|]. now apply IH.
Qed.

Lemma objects_of_length : forall os c, length (objects_of c os) = length os.
Proof. induction os as [|[n ss] os IH]; intros c; cbn; auto. Qed.

Lemma proper_nth : forall os c i o, proper_objects c os -> nth_error os i = Some o ->
  proper_body (count_objects c (firstn i os)) (count_objects c (firstn i os)) (snd o).
Proof.
  induction os as [|[n ss] os IH]; intros c i o Hp H; [destruct i; discriminate|].
  destruct Hp as [Hp1 Hp2]. destruct i as [|i]; cbn in *; [inversion H; subst; exact Hp1|]. now apply IH.
Qed.

Lemma count_objects_lengths : forall os c,
  count_objects c os = mkCounts (n_v c + length (flat_map (fun o => all_vertices (snd o)) os))
    (n_t c + length (flat_map (fun o => all_texture_vertices (snd o)) os))
    (n_n c + length (flat_map (fun o => all_normals (snd o)) os)).
Proof.
  induction os as [|[n ss] os IH]; intros [a b d]; [cbn; now rewrite !Nat.add_0_r|].
  cbn [count_objects fold_left snd flat_map]. fold (count_objects (count_all (mkCounts a b d) ss) os).
  rewrite IH, count_lengths. cbn [n_v n_t n_n]. rewrite !app_length. f_equal; lia.
Qed.

Lemma flat_map_nth : forall A B (f : A -> list B) l i x, nth_error l i = Some x ->
  flat_map f l = flat_map f (firstn i l) ++ f x ++ flat_map f (skipn (S i) l).
Proof.
  intros A B f l. induction l as [|a l IH]; intros i x H; [destruct i; discriminate|].
  destruct i as [|i]; cbn in *.
  - inversion H; subst. reflexivity.
  - rewrite (IH i x H) at 1. rewrite <- app_assoc. reflexivity.
Qed.

(** A reference of an object, resolved in the object and in the file. *)
Lemma lookup_local : forall f i o r, nth_error (file_objects f) i = Some o ->
  ref_in_scope (count_objects no_counts (firstn i (file_objects f)))
    (count_all (count_objects no_counts (firstn i (file_objects f))) (snd o)) r ->
  exists t, lookup f r = Some t /\
    get_vtn_triple (object_of (count_objects no_counts (firstn i (file_objects f))) (fst o) (snd o))
      (local_ref (count_objects no_counts (firstn i (file_objects f))) r) = Some t.
Proof.
  intros f i o r Hi (Hv & Ht & Hn). rewrite count_lengths, count_objects_lengths in *.
  cbn [n_v n_t n_n no_counts Nat.add] in *.
  unfold lookup, file_vertices, file_texture_vertices, file_normals.
  rewrite (flat_map_nth _ _ (fun o => all_vertices (snd o)) _ _ _ Hi),
    (flat_map_nth _ _ (fun o => all_texture_vertices (snd o)) _ _ _ Hi),
    (flat_map_nth _ _ (fun o => all_normals (snd o)) _ _ _ Hi).
  destruct (number_skip _ _ _ (flat_map (fun o => all_vertices (snd o)) (skipn (S i) (file_objects f))) _ Hv) as [Ev Lv].
  rewrite Ev. apply nth_error_Some in Lv.
  destruct r as [kv [kt|] [kn|]]; cbn [ref_v ref_t ref_n part_in_scope] in *; unfold local_ref; cbn [ref_v ref_t ref_n get_vtn_triple];
    cbn [object_of vertex_set texture_vertex_set normal_vertex_set n_v n_t n_n];
    destruct (nth_error (all_vertices (snd o)) _) as [v|] eqn:E1; try congruence.
  - destruct (number_skip _ _ _ (flat_map (fun o => all_texture_vertices (snd o)) (skipn (S i) (file_objects f))) _ Ht) as [Et Lt].
    destruct (number_skip _ _ _ (flat_map (fun o => all_normals (snd o)) (skipn (S i) (file_objects f))) _ Hn) as [En Ln].
    rewrite Et, En. apply nth_error_Some in Lt. apply nth_error_Some in Ln.
    destruct (nth_error (all_texture_vertices (snd o)) _) as [vt|] eqn:E2; try congruence.
    destruct (nth_error (all_normals (snd o)) _) as [vn|] eqn:E3; try congruence. eauto.
  - destruct (number_skip _ _ _ (flat_map (fun o => all_texture_vertices (snd o)) (skipn (S i) (file_objects f))) _ Ht) as [Et Lt].
    rewrite Et. apply nth_error_Some in Lt.
    destruct (nth_error (all_texture_vertices (snd o)) _) as [vt|] eqn:E2; try congruence. cbn. eauto.
  - destruct (number_skip _ _ _ (flat_map (fun o => all_normals (snd o)) (skipn (S i) (file_objects f))) _ Hn) as [En Ln].
    rewrite En. apply nth_error_Some in Ln.
    destruct (nth_error (all_normals (snd o)) _) as [vn|] eqn:E3; try congruence. cbn. eauto.
  - eauto.
Qed.

Lemma map_ext_in' : forall A B (f g : A -> B) l, (forall a, In a l -> f a = g a) -> map f l = map g l.
Proof. intros. now apply map_ext_in. Qed.

Lemma draw_map_ext : forall A B (f g : A -> B) d, (forall a, In a (corners d) -> f a = g a) -> draw_map f d = draw_map g d.
Proof. intros A B f g []; cbn; intros H; f_equal; auto. Qed.

Lemma draw_map_map : forall A B C (f : A -> B) (g : B -> C) d, draw_map g (draw_map f d) = draw_map (fun a => g (f a)) d.
Proof. intros A B C f g []; reflexivity. Qed.

Lemma resolved_elements : forall f i o, proper_objects no_counts (file_objects f) ->
  nth_error (file_objects f) i = Some o ->
  forall ob, nth_error (objects (file_means f)) i = Some ob ->
  map (fun e => draw_map (get_vtn_triple ob) (draw_element e)) (element_set ob) =
  map (draw_map (lookup f)) (flat_map written (snd o)) /\
  (forall d r, In d (flat_map written (snd o)) -> In r (corners d) -> lookup f r <> None).
Proof.
  intros f i o Hp Hi ob Ho. cbn [file_means objects] in Ho. rewrite (objects_of_nth _ _ _ _ Hi) in Ho.
  inversion Ho; subst ob. clear Ho. pose proof (proper_nth _ _ _ _ Hp Hi) as Hb.
  assert (HL : forall d r, In d (flat_map written (snd o)) -> In r (corners d) ->
    exists t, lookup f r = Some t /\
    get_vtn_triple (object_of (count_objects no_counts (firstn i (file_objects f))) (fst o) (snd o))
      (local_ref (count_objects no_counts (firstn i (file_objects f))) r) = Some t).
  { intros d r Hd Hr. apply lookup_local; auto. eapply body_corners; eauto. }
  split.
  - rewrite <- map_map. cbn [element_set object_of]. rewrite all_elements_written, map_map.
    apply map_ext_in. intros d Hd. rewrite draw_map_map. apply draw_map_ext. intros r Hr.
    destruct (HL d r Hd Hr) as (t & -> & E). exact E.
  - intros d r Hd Hr. destruct (HL d r Hd Hr) as (t & -> & _). discriminate.
Qed.

(** * Groups *)

Lemma activate_snoc : forall before s, fold_left activate_groups (before ++ [s]) None =
  activate_groups (fold_left activate_groups before None) s.
Proof. intros. apply fold_left_app. Qed.

Lemma map_nth_seq : forall A (l2 l1 : list A), map (nth_error (l1 ++ l2)) (seq (length l1) (length l2)) = map Some l2.
Proof.
  intros A l2. induction l2 as [|a l2 IH]; intros l1; [reflexivity|]. cbn [length seq map]. f_equal.
  - rewrite nth_error_app2 by lia. now rewrite Nat.sub_diag.
  - specialize (IH (l1 ++ [a])). rewrite <- app_assoc, app_length in IH. cbn in IH.
    rewrite Nat.add_1_r in IH. exact IH.
Qed.

Lemma map_nth_more : forall A (l l' : list A) is, (forall i, In i is -> i < length l) ->
  map (nth_error (l ++ l')) is = map (nth_error l) is.
Proof. intros. apply map_ext_in. intros i Hi. apply nth_error_app1. auto. Qed.

Lemma groups_inv : forall before,
  (all_groups before = [] <-> fold_left activate_groups before None = None) /\
  (all_groups before = [] -> groups_at before = [0]) /\
  (all_groups before <> [] -> map (nth_error (all_groups before)) (groups_at before) = map Some (active_groups before) /\
     forall i, In i (groups_at before) -> i < length (all_groups before)).
Proof.
  intros before. induction before as [|s before IH] using rev_ind.
  - cbn. split; [tauto|]. split; auto. congruence.
  - destruct IH as (I1 & I2 & I3). rewrite all_groups_snoc, groups_at_snoc, activate_snoc.
    assert (Hact : active_groups (before ++ [s]) =
      match activate_groups (fold_left activate_groups before None) s with Some names => names | None => [lit "default"] end).
    { unfold active_groups. now rewrite activate_snoc. }
    rewrite Hact. unfold active_groups in I3. clear Hact.
    destruct (fold_left activate_groups before None) as [cur|] eqn:Ef.
    + assert (Hne : all_groups before <> []) by (intros E; apply I1 in E; discriminate).
      destruct (I3 Hne) as [I3a I3b]. clear I1 I2 I3.
      destruct (all_groups before) as [|g gs] eqn:Eg; [congruence|]. clear Hne.
      destruct s as [| | |names| | | | |]; cbn [is_element names_of activate_groups]; rewrite ?app_nil_r;
        try (repeat split; auto; discriminate).
      assert (Ha : activate_groups (Some cur) (SGroup names) = Some names) by (destruct names; reflexivity).
      change (match names with [] => Some cur | _ :: _ => Some names end) with (match names with [] => Some cur | _ :: _ => Some names end).
      destruct names as [|n names].
      * cbn [app length seq map]. rewrite app_nil_r. repeat split; try discriminate; auto. intros i [].
      * repeat split; try discriminate.
        -- apply (map_nth_seq _ (n :: names) (g :: gs)).
        -- intros i Hi. apply in_seq in Hi. rewrite app_length. lia.
    + assert (Hne : all_groups before = []) by now apply I1. specialize (I2 Hne). clear I1 I3.
      rewrite Hne. destruct s as [| | |names| | | | |]; cbn [is_element names_of activate_groups app];
        try (repeat split; auto; congruence);
        try (rewrite I2; repeat split; try congruence; cbn; intros; lia).
      destruct names as [|n names].
      * repeat split; auto; congruence.
      * repeat split; try discriminate.
        -- apply (map_nth_seq _ (n :: names) []).
        -- intros i Hi. apply in_seq in Hi. cbn in *. lia.
Qed.

Lemma all_groups_app : forall after before, all_groups before <> [] ->
  all_groups (before ++ after) = all_groups before ++ declared_names after.
Proof.
  intros after before Hne. induction after as [|s after IH] using rev_ind; [now rewrite !app_nil_r|].
  rewrite app_assoc, all_groups_snoc, IH. unfold declared_names. rewrite flat_map_app. cbn [flat_map]. rewrite app_nil_r.
  destruct (is_element s) eqn:E.
  - replace (names_of s) with (@nil bytes) by (destruct s; auto; discriminate). rewrite app_nil_r.
    destruct (all_groups before); [congruence|reflexivity].
  - now rewrite app_assoc.
Qed.

Lemma groups_of_element : forall ss before s after, ss = before ++ s :: after -> is_element s = true ->
  map (nth_error (all_groups ss)) (groups_at before) = map Some (active_groups before) /\
  (forall i, In i (groups_at before) -> i < length (all_groups ss)).
Proof.
  intros ss before s after -> He. change (before ++ s :: after) with (before ++ [s] ++ after). rewrite app_assoc.
  assert (Hs : all_groups (before ++ [s]) = match all_groups before with [] => [lit "default"] | l => l end)
    by (rewrite all_groups_snoc, He; reflexivity).
  assert (Hn : all_groups (before ++ [s]) <> []) by (rewrite Hs; destruct (all_groups before); discriminate).
  rewrite (all_groups_app after _ Hn), Hs. destruct (groups_inv before) as (I1 & I2 & I3).
  destruct (all_groups before) as [|g gs] eqn:E.
  - rewrite (I2 eq_refl). unfold active_groups. destruct I1 as [I1 _]. rewrite (I1 eq_refl). cbn. split; auto.
    intros i [<-|[]]. cbn. lia.
  - destruct I3 as [I3a I3b]; [discriminate|]. rewrite map_nth_more by auto. split; auto.
    intros i Hi. specialize (I3b i Hi). rewrite app_length. lia.
Qed.

(** * Smoothing groups *)

Lemma smoothing_inv_view : forall before,
  (all_smoothing_groups before = [] -> active_smoothing before = 0%N) /\
  (all_smoothing_groups before <> [] ->
     nth_error (all_smoothing_groups before) (smoothing_at before) = Some (active_smoothing before)).
Proof.
  intros before. unfold smoothing_at. induction before as [|s before [I1 I2]] using rev_ind.
  - split; [reflexivity|]. intros H. exfalso. now apply H.
  - rewrite all_smoothing_groups_snoc. unfold active_smoothing in *. rewrite fold_left_app. cbn [fold_left].
    set (act := fold_left _ before 0%N) in *.
    destruct (all_smoothing_groups before) as [|g gs] eqn:E.
    + rewrite (I1 eq_refl). destruct s; cbn; split; auto; congruence.
    + destruct s; cbn [is_element smoothing_of]; rewrite ?app_nil_r; split; try discriminate; auto.
      * intros _. rewrite app_length, Nat.add_1_r. cbn [pred]. rewrite nth_error_app2 by lia. now rewrite Nat.sub_diag.
Qed.

Lemma all_smoothing_app : forall after before, all_smoothing_groups before <> [] ->
  all_smoothing_groups (before ++ after) = all_smoothing_groups before ++ declared_smoothing after.
Proof.
  intros after before Hne. induction after as [|s after IH] using rev_ind; [now rewrite !app_nil_r|].
  rewrite app_assoc, all_smoothing_groups_snoc, IH. unfold declared_smoothing. rewrite flat_map_app. cbn [flat_map]. rewrite app_nil_r.
  destruct (is_element s) eqn:E.
  - replace (smoothing_of s) with (@nil N) by (destruct s; auto; discriminate). rewrite app_nil_r.
    destruct (all_smoothing_groups before); [congruence|reflexivity].
  - now rewrite app_assoc.
Qed.

Lemma smoothing_of_element : forall ss before s after, ss = before ++ s :: after -> is_element s = true ->
  nth_error (all_smoothing_groups ss) (smoothing_at before) = Some (active_smoothing before).
Proof.
  intros ss before s after -> He. change (before ++ s :: after) with (before ++ [s] ++ after). rewrite app_assoc.
  assert (Hs : all_smoothing_groups (before ++ [s]) = match all_smoothing_groups before with [] => [0%N] | l => l end)
    by (rewrite all_smoothing_groups_snoc, He; reflexivity).
  assert (Hn : all_smoothing_groups (before ++ [s]) <> []) by (rewrite Hs; destruct (all_smoothing_groups before); discriminate).
  rewrite (all_smoothing_app after _ Hn), Hs. destruct (smoothing_inv_view before) as (I1 & I2).
  unfold smoothing_at in *.
  destruct (all_smoothing_groups before) as [|g gs] eqn:E.
  - rewrite (I1 eq_refl). reflexivity.
  - rewrite nth_error_app1; [apply I2; discriminate|]. cbn. lia.
Qed.

(** * Shapes *)

Lemma element_position : forall base ss j, j < length (all_elements base ss) ->
  exists before s, element_at ss j before s /\ is_element s = true.
Proof.
  intros base ss j Hj. rewrite length_all_written in Hj. revert j Hj.
  induction ss as [|s ss IH]; intros j Hj; [cbn in Hj; lia|]. cbn [flat_map] in Hj. rewrite app_length in Hj.
  destruct (Nat.lt_ge_cases j (length (written s))) as [Hl|Hl].
  - exists [], s. split; [exists ss; split; [reflexivity|cbn; lia]|]. destruct s; cbn in *; auto; lia.
  - destruct (IH (j - length (written s))) as (before & s' & (after & E & Hr) & He); [lia|].
    exists (s :: before), s'. split; auto. exists after. split; [now rewrite E|]. cbn [flat_map]. rewrite app_length. lia.
Qed.

Lemma shapes_at : forall base ss i pre j before s, element_at ss j before s ->
  nth_error (shapes_from pre base ss i) j =
  Some (mkShapeEntry (i + j) (groups_at (pre ++ before)) (smoothing_at (pre ++ before))).
Proof.
  intros base ss. induction ss as [|s0 ss IH]; intros i pre j before s (after & E & Hj); [destruct before; discriminate|].
  cbn [shapes_from]. rewrite length_written. destruct before as [|b before]; cbn in E; inversion E; subst.
  - cbn in Hj. rewrite nth_error_app1 by (rewrite map_length, seq_length; lia).
    rewrite nth_error_map, nth_error_seq. destruct (Nat.ltb_spec j (length (written s))); [|lia].
    now rewrite app_nil_r.
  - cbn [flat_map] in Hj. rewrite app_length in Hj.
    rewrite nth_error_app2 by (rewrite map_length, seq_length; lia). rewrite map_length, seq_length.
    rewrite (IH _ _ _ before s) by (exists after; split; auto; lia).
    rewrite <- app_assoc. cbn [app]. f_equal. f_equal. lia.
Qed.

Lemma element_at_element : forall ss j before s, element_at ss j before s -> is_element s = true.
Proof. intros ss j before s (after & _ & Hj). destruct s; cbn in *; auto; lia. Qed.

(** * Materials *)

Lemma shapes_drop_empty : forall gs, concat (map shapes (drop_empty gs)) = concat (map shapes gs).
Proof.
  induction gs as [|g gs IH]; [reflexivity|].
  destruct gs as [|g' gs]; [reflexivity|].
  assert (E : drop_empty (g :: g' :: gs) = match shapes g with [] => drop_empty (g' :: gs) | _ => g :: drop_empty (g' :: gs) end) by reflexivity.
  rewrite E. cbn [map concat] in *. destruct (shapes g) eqn:Es; [exact IH|]. cbn [map concat]. rewrite Es, IH. reflexivity.
Qed.

Lemma shapes_segments : forall base ss m i n,
  concat (map shapes (segments m base ss i n)) = seq i (n + length (all_elements base ss)).
Proof.
  intros base ss. induction ss as [|s ss IH]; intros m i n.
  - cbn. now rewrite app_nil_r, Nat.add_0_r.
  - change (all_elements base (s :: ss)) with (elements_of base s ++ all_elements base ss).
    destruct s; cbn [segments]; rewrite ?IH; cbn [map concat shapes];
      rewrite ?IH, ?app_length; cbn [elements_of length Nat.add];
      try (f_equal; cbn; lia).
    rewrite <- seq_app. f_equal.
Qed.

Lemma in_drop_empty : forall g gs, In g (drop_empty gs) -> In g gs.
Proof.
  intros g gs. induction gs as [|a gs IH]; [auto|].
  destruct gs as [|b gs]; [auto|].
  assert (E : drop_empty (a :: b :: gs) = match shapes a with [] => drop_empty (b :: gs) | _ => a :: drop_empty (b :: gs) end) by reflexivity.
  rewrite E. destruct (shapes a); [now right; auto|]. intros [->|H]; [now left|right; auto].
Qed.

Lemma material_segments : forall base ss m i n g j before s, In g (segments m base ss i n) -> In j (shapes g) ->
  i + n <= j -> element_at ss (j - i - n) before s ->
  material_name g = fold_left (fun active s => match s with SUse m => Some m | _ => active end) before m.
Proof.
  intros base ss. induction ss as [|s0 ss IH]; intros m i n g j before s Hg Hj Hl (after & E & Hp).
  - destruct before; discriminate.
  - destruct before as [|b before]; cbn in E; inversion E; subst.
    + cbn [flat_map length Nat.add fold_left] in *.
      assert (Hns : forall x, s <> SUse x) by (intros x ->; cbn in Hp; lia).
      assert (Hs : segments m base (s :: after) i n = segments m base after i (n + length (elements_of base s))).
      { destruct s; auto. exfalso. eapply Hns; eauto. }
      rewrite Hs in Hg. rewrite length_written in Hg.
      assert (Hgen : forall ss m i n g j, In g (segments m base ss i n) -> In j (shapes g) -> j < i + n -> i <= j -> material_name g = m).
      { clear. intros ss. induction ss as [|s ss IH]; intros m i n g j Hg Hj Hl Hi.
        - cbn in Hg. destruct Hg as [<-|[]]. reflexivity.
        - assert (Hlow : forall ss m i n g j, In g (segments m base ss i n) -> In j (shapes g) -> i <= j).
          { clear. intros ss. induction ss as [|s ss IH]; intros m i n g j Hg Hj; [cbn in Hg; destruct Hg as [<-|[]]; cbn in Hj; apply in_seq in Hj; lia|].
            destruct s; cbn [segments] in Hg; try (eapply IH; eauto; fail).
            destruct Hg as [<-|Hg]; [cbn in Hj; apply in_seq in Hj; lia|]. specialize (IH _ _ _ _ _ Hg Hj). lia. }
          destruct s; cbn [segments] in Hg; try (eapply IH; eauto; lia).
          destruct Hg as [<-|Hg]; [reflexivity|]. specialize (Hlow _ _ _ _ _ _ Hg Hj). lia. }
      eapply Hgen; eauto; lia.
    + cbn [flat_map] in Hp. rewrite app_length in Hp. cbn [fold_left].
      destruct b; cbn [segments written] in *; cbn [length Nat.add] in Hp;
        try (cbn [elements_of length] in Hg; rewrite ?Nat.add_0_r in Hg; refine (IH _ _ _ g j before s Hg Hj _ _); [lia|exists after; split; [reflexivity|lia]]; fail).
      * destruct Hg as [<-|Hg]; [cbn in Hj; apply in_seq in Hj; lia|].
        refine (IH _ _ _ g j before s Hg Hj _ _); [lia|exists after; split; [reflexivity|lia]].
      * rewrite (length_written base (SPoint ks)) in Hg. cbn [written] in Hg.
        refine (IH _ _ _ g j before s Hg Hj _ _); [lia|exists after; split; [reflexivity|lia]].
      * rewrite (length_written base (SLine rs)) in Hg. cbn [written] in Hg.
        refine (IH _ _ _ g j before s Hg Hj _ _); [lia|exists after; split; [reflexivity|lia]].
      * rewrite (length_written base (SFace rs)) in Hg. cbn [written] in Hg.
        refine (IH _ _ _ g j before s Hg Hj _ _); [lia|exists after; split; [reflexivity|lia]].
Qed.
