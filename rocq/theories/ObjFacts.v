(** Facts about the objects [obj::parse] returns. *)
From Verif Require Import ObjModel ObjErrorSpec ObjView LexerProofs SourceProofs ObjFile ObjTop ObjMeaning ObjReach ObjUnique.
Local Open Scope list_scope.

Lemma parse_debug_ok : forall dbg input set, parse dbg input = Ok set -> parse false input = Ok set.
Proof.
  intros [|] input set H; auto. unfold parse in *.
  match goal with |- fst (parse_objset false ?n ?p) = _ => destruct (parse_objset_debug lexer_source n p) as [E|[E|E]] end; congruence.
Qed.

Lemma says_unique : forall input f f', says input f -> says input f' -> f = f'.
Proof.
  intros input f f' (ts & Ht & H) (ts' & Ht' & H'). apply tokenizes_iff in Ht, Ht'. subst. eapply file_det; eauto.
Qed.

Lemma parse_says_iff : forall input set, fits input ->
  parse false input = Ok set <->
  exists f, says input f /\ Forall drawable (file_objects f) /\ set = file_means f.
Proof.
  intros input set Hf. rewrite parse_ok_iff by auto. unfold says. split.
  - intros (ts & f & H1 & H2 & H3 & H4). eauto 8.
  - intros (f & (ts & H1 & H2) & H3 & H4). eauto 8.
Qed.

Section Parsed.
Context (dbg : bool) (input : bytes) (set : object_set).
Context (Hfits : fits input) (Hok : parse dbg input = Ok set).

Lemma parsed_said : exists f, says input f /\ Forall drawable (file_objects f) /\ set = file_means f.
Proof. apply parse_debug_ok in Hok. now apply parse_says_iff in Hok. Qed.

Context (f : obj_file) (Hsays : says input f).

Lemma parsed_is : set = file_means f.
Proof. destruct parsed_said as (f' & Hs & _ & ->). now rewrite (says_unique _ _ _ Hsays Hs). Qed.

Lemma parsed_drawable : Forall drawable (file_objects f).
Proof. destruct parsed_said as (f' & Hs & H & _). now rewrite (says_unique _ _ _ Hsays Hs). Qed.

Lemma said_proper : proper_objects no_counts (file_objects f).
Proof. destruct Hsays as (ts & _ & H). eapply file_proper; eauto. Qed.

Lemma parsed_count : length (objects set) = length (file_objects f).
Proof. rewrite parsed_is. apply objects_of_length. Qed.

Lemma base_is : forall i, base_of f i = count_objects no_counts (firstn i (file_objects f)).
Proof. intros i. rewrite count_objects_lengths. reflexivity. Qed.

Lemma names_of_objects : forall os c, map name (objects_of c os) = map fst os.
Proof. induction os as [|[n ss] os IH]; intros c; [reflexivity|]. cbn [objects_of map]. rewrite IH. reflexivity. Qed.

Lemma parsed_names : map name (objects set) = map fst (file_objects f).
Proof. rewrite parsed_is. apply names_of_objects. Qed.

Lemma parsed_libraries : material_libraries set = file_libraries f.
Proof. now rewrite parsed_is. Qed.

Section Nth.
Context (i : nat) (ob : object) (n : bytes) (ss : list statement).
Context (Hob : nth_error (objects set) i = Some ob) (Hss : nth_error (file_objects f) i = Some (n, ss)).

Lemma nth_is : ob = object_of (base_of f i) n ss.
Proof.
  rewrite parsed_is in Hob. unfold file_means in Hob. cbn [objects] in Hob.
  rewrite (objects_of_nth _ _ _ _ Hss) in Hob. inversion Hob. now rewrite base_is.
Qed.

Lemma nth_data : vertex_set ob = all_vertices ss /\ texture_vertex_set ob = all_texture_vertices ss /\
  normal_vertex_set ob = all_normals ss.
Proof. rewrite nth_is. auto. Qed.

Lemma nth_resolved :
  map (fun e => draw_map (get_vtn_triple ob) (draw_element e)) (element_set ob) =
  map (draw_map (lookup f)) (flat_map written ss) /\
  (forall d r, In d (flat_map written ss) -> In r (corners d) -> lookup f r <> None).
Proof.
  eapply (resolved_elements f i (n, ss)); eauto using said_proper. now rewrite <- parsed_is.
Qed.

Lemma nth_elements : forall before s after, ss = before ++ s :: after ->
  exists front back, element_set ob = front ++ elements_of (base_of f i) s ++ back /\
    length front = length (flat_map written before).
Proof.
  intros before s after E. rewrite nth_is. exists (all_elements (base_of f i) before), (all_elements (base_of f i) after).
  split.
  - cbn [element_set object_of]. rewrite E. unfold all_elements. rewrite flat_map_app. reflexivity.
  - apply length_all_written.
Qed.

Lemma faces_of : forall base rs,
  elements_of base (SFace rs) =
  map (fun j => Face (local_ref base (nth_ref rs 0)) (local_ref base (nth_ref rs (j + 1))) (local_ref base (nth_ref rs (j + 2))))
      (seq 0 (length rs - 2)).
Proof.
  intros base rs.
  assert (E := elements_written base (SFace rs)). cbn [written] in E. rewrite map_map in E. cbn [draw_map] in E.
  cbn [elements_of] in *. destruct rs as [|r rs]; [reflexivity|]. cbn [map] in *.
  remember (pairs (map (local_ref base) rs)) as ps. clear Heqps.
  remember (seq 0 (length (r :: rs) - 2)) as js. clear Heqjs. clear - E.
  revert js E. induction ps as [|[a b] ps IH]; intros [|j js] E; cbn in E |- *; inversion E; subst; auto. f_equal. auto.
Qed.

Lemma lines_of : forall base rs,
  elements_of base (SLine rs) =
  map (fun j => Line (local_ref base (nth_ref rs j)) (local_ref base (nth_ref rs (j + 1)))) (seq 0 (length rs - 1)).
Proof.
  intros base rs.
  assert (E := elements_written base (SLine rs)). cbn [written] in E. rewrite map_map in E. cbn [draw_map] in E.
  cbn [elements_of] in *.
  remember (pairs (map (local_ref base) rs)) as ps. clear Heqps.
  remember (seq 0 (length rs - 1)) as js. clear Heqjs. clear - E.
  revert js E. induction ps as [|[a b] ps IH]; intros [|j js] E; cbn in E |- *; inversion E; subst; auto. f_equal. auto.
Qed.

Lemma nth_shape : forall j, j < length (element_set ob) ->
  exists before s, element_at ss j before s /\ is_element s = true /\
    nth_error (shape_set ob) j = Some (mkShapeEntry j (groups_at before) (smoothing_at before)).
Proof.
  intros j Hj. rewrite nth_is in *. cbn [element_set shape_set object_of] in *.
  destruct (element_position _ _ _ Hj) as (before & s & H & He). exists before, s. repeat split; auto.
  apply (shapes_at _ _ 0 [] j before s H).
Qed.

Lemma length_shapes : forall base l pre k, length (shapes_from pre base l k) = length (all_elements base l).
Proof.
  intros base l. induction l as [|s l IH]; intros pre k; [reflexivity|]. cbn [shapes_from].
  rewrite app_length, map_length, seq_length, IH. unfold all_elements. cbn [flat_map]. now rewrite app_length.
Qed.

Lemma nth_shape_length : length (shape_set ob) = length (element_set ob).
Proof. rewrite nth_is. apply length_shapes. Qed.

Lemma element_at_bound : forall j before s, element_at ss j before s -> j < length (element_set ob).
Proof.
  intros j before s (after & E & Hj). rewrite nth_is. cbn [element_set object_of]. rewrite length_all_written, E, flat_map_app, app_length.
  cbn [flat_map]. rewrite app_length. lia.
Qed.

Lemma element_at_unique : forall l j before s before' s', element_at l j before s -> element_at l j before' s' ->
  before = before' /\ s = s'.
Proof.
  induction l as [|x l IH]; intros j before s before' s' (after & E & Hj) (after' & E' & Hj').
  - destruct before; discriminate.
  - destruct before as [|b before], before' as [|b' before']; cbn in E, E', Hj, Hj';
      injection E as Ex El; injection E' as Ex' El'; subst x.
    + subst. auto.
    + subst. rewrite app_length in Hj'. lia.
    + subst. rewrite app_length in Hj. lia.
    + subst b'. rewrite app_length in Hj, Hj'.
      destruct (IH (j - length (written b)) before s before' s') as [-> ->]; auto.
      * exists after. split; [assumption|lia].
      * exists after'. split; [assumption|lia].
Qed.

Lemma nth_shape_at : forall j before s se, element_at ss j before s -> nth_error (shape_set ob) j = Some se ->
  se = mkShapeEntry j (groups_at before) (smoothing_at before).
Proof.
  intros j before s se H Hse. destruct (nth_shape j (element_at_bound _ _ _ H)) as (before' & s' & H' & _ & E).
  destruct (element_at_unique _ _ _ _ _ _ H H') as [-> ->]. congruence.
Qed.

Lemma nth_groups : forall j before s se, element_at ss j before s -> nth_error (shape_set ob) j = Some se ->
  map (nth_error (group_set ob)) (se_groups se) = map Some (active_groups before).
Proof.
  intros j before s se H Hse. rewrite (nth_shape_at _ _ _ _ H Hse). cbn [se_groups].
  rewrite nth_is. cbn [group_set object_of]. pose proof (element_at_element _ _ _ _ H) as He.
  destruct H as (after & E & _). now apply (groups_of_element ss before s after).
Qed.

Lemma nth_smoothing : forall j before s se, element_at ss j before s -> nth_error (shape_set ob) j = Some se ->
  nth_error (smoothing_group_set ob) (se_smoothing_group se) = Some (active_smoothing before).
Proof.
  intros j before s se H Hse. rewrite (nth_shape_at _ _ _ _ H Hse). cbn [se_smoothing_group].
  rewrite nth_is. cbn [smoothing_group_set object_of]. pose proof (element_at_element _ _ _ _ H) as He.
  destruct H as (after & E & _). now apply (smoothing_of_element ss before s after).
Qed.

Lemma nth_material : forall j before s g, element_at ss j before s -> In g (geometry_set ob) -> In j (shapes g) ->
  material_name g = active_material before.
Proof.
  intros j before s g H Hg Hj. rewrite nth_is in Hg. cbn [geometry_set object_of] in Hg. apply in_drop_empty in Hg.
  refine (material_segments _ ss None 0 0 g j before s Hg Hj _ _); [lia|]. rewrite !Nat.sub_0_r. exact H.
Qed.

End Nth.
End Parsed.

(** The declarations, with the default in front. *)
Lemma declared_split : forall A (decl : statement -> list A) d ss,
  (forall s, is_element s = true -> decl s = []) ->
  (forall before s after, ss = before ++ s :: after -> is_element s = true -> flat_map decl before = [] ->
     declared decl d ss = d :: flat_map decl ss) /\
  ((forall before s after, ss = before ++ s :: after -> is_element s = true -> flat_map decl before <> []) ->
     declared decl d ss = flat_map decl ss).
Proof.
  intros A decl d ss Hd. induction ss as [|x ss [I1 I2]].
  - split; [intros [|? ?] ? ? E; discriminate|reflexivity].
  - cbn [declared flat_map]. destruct (is_element x) eqn:Ex.
    + rewrite (Hd x Ex). split; [reflexivity|]. intros H. exfalso. now apply (H [] x ss).
    + split.
      * intros [|b before] s after E Hs Hb; cbn in E; inversion E; subst; [congruence|].
        cbn in Hb. apply app_eq_nil in Hb. destruct Hb as [Hb1 Hb2]. rewrite Hb1. cbn.
        eapply I1; eauto.
      * intros H. destruct (decl x) eqn:E; [|reflexivity]. cbn. apply I2. intros before s after Es He Hb.
        apply (H (x :: before) s after); [now rewrite Es|auto|]. cbn. now rewrite E, Hb.
Qed.

(** * Facts about every returned object *)

Lemma object_cases : forall dbg input set ob, fits input -> parse dbg input = Ok set -> In ob (objects set) ->
  exists f i n ss, says input f /\ Forall drawable (file_objects f) /\
    nth_error (objects set) i = Some ob /\ nth_error (file_objects f) i = Some (n, ss).
Proof.
  intros dbg input set ob Hf Hok Hin. destruct (parsed_said _ _ _ Hf Hok) as (f & Hs & Hd & E).
  destruct (In_nth_error _ _ Hin) as [i Hi].
  destruct (nth_error (file_objects f) i) as [[n ss]|] eqn:En.
  - exists f, i, n, ss. auto.
  - exfalso. apply nth_error_None in En. rewrite <- (parsed_count _ _ _ Hf Hok f Hs) in En.
    apply nth_error_None in En. congruence.
Qed.

Lemma corners_map : forall A B (g : A -> B) d, corners (draw_map g d) = map g (corners d).
Proof. intros A B g []; reflexivity. Qed.

Lemma object_resolves : forall dbg input set ob e c, fits input -> parse dbg input = Ok set -> In ob (objects set) ->
  In e (element_set ob) -> In c (corners (draw_element e)) -> get_vtn_triple ob c <> None.
Proof.
  intros dbg input set ob e c Hf Hok Hin He Hc.
  destruct (object_cases _ _ _ _ Hf Hok Hin) as (f & i & n & ss & Hs & _ & Hi & Hn).
  destruct (nth_resolved _ _ _ Hf Hok f Hs i ob n ss Hi Hn) as [E HL].
  pose proof (in_map (fun e => draw_map (get_vtn_triple ob) (draw_element e)) _ _ He) as H. rewrite E in H.
  apply in_map_iff in H. destruct H as (d & Hd & Hw).
  pose proof (in_map (get_vtn_triple ob) _ _ Hc) as H. rewrite <- corners_map, <- Hd, corners_map in H.
  apply in_map_iff in H. destruct H as (r & Hr & Hrc). rewrite <- Hr. eapply HL; eauto.
Qed.

Lemma form_local : forall base r, index_form (local_ref base r) = form r.
Proof. intros base [v [t|] [n|]]; reflexivity. Qed.

Lemma object_forms : forall dbg input set ob e, fits input -> parse dbg input = Ok set -> In ob (objects set) ->
  In e (element_set ob) ->
  (forall a b, In a (corners (draw_element e)) -> In b (corners (draw_element e)) -> index_form a = index_form b) /\
  (forall a, e = Point a -> exists k, a = V k).
Proof.
  intros dbg input set ob e Hf Hok Hin He.
  destruct (object_cases _ _ _ _ Hf Hok Hin) as (f & i & n & ss & Hs & _ & Hi & Hn).
  rewrite (nth_is _ _ _ Hf Hok f Hs i ob n ss Hi Hn) in He. cbn [element_set object_of] in He.
  pose proof (proper_nth _ _ _ _ (said_proper _ _ Hs) Hn) as Hp. cbn [snd] in Hp.
  apply in_flat_map in He. destruct He as (s & Hss & He).
  apply in_split in Hss. destruct Hss as (before & after & Es).
  pose proof (proper_at _ _ _ _ _ _ Hp Es) as Hps.
  pose proof (in_map draw_element _ _ He) as H. rewrite elements_written in H. apply in_map_iff in H.
  destruct H as (d & Hd & Hw). rewrite <- Hd, corners_map. split.
  - intros a b Ha Hb. apply in_map_iff in Ha, Hb. destruct Ha as (ra & <- & Ha), Hb as (rb & <- & Hb).
    rewrite !form_local. pose proof (written_corners _ _ _ Hw Ha) as Wa. pose proof (written_corners _ _ _ Hw Hb) as Wb.
    destruct s; try contradiction; cbn in Hps.
    + destruct Wa as (k & _ & ->), Wb as (k' & _ & ->). reflexivity.
    + apply Hps; auto.
    + apply Hps; auto.
  - intros a ->. cbn in Hd. destruct s; cbn [written] in Hw; try contradiction; apply in_map_iff in Hw; destruct Hw as (k & <- & _);
      cbn in Hd; inversion Hd; eauto.
Qed.

Lemma object_shapes : forall dbg input set ob, fits input -> parse dbg input = Ok set -> In ob (objects set) ->
  length (shape_set ob) = length (element_set ob) /\
  forall j se, nth_error (shape_set ob) j = Some se ->
    se_element se = j /\ Forall (fun g => g < length (group_set ob)) (se_groups se) /\
    se_smoothing_group se < length (smoothing_group_set ob).
Proof.
  intros dbg input set ob Hf Hok Hin.
  destruct (object_cases _ _ _ _ Hf Hok Hin) as (f & i & n & ss & Hs & _ & Hi & Hn).
  pose proof (nth_shape_length _ _ _ Hf Hok f Hs i ob n ss Hi Hn) as Hl. split; [exact Hl|].
  intros j se Hj. assert (Hlt : j < length (element_set ob)) by (rewrite <- Hl; apply nth_error_Some; congruence).
  destruct (nth_shape _ _ _ Hf Hok f Hs i ob n ss Hi Hn j Hlt) as (before & s & H & _ & E).
  rewrite Hj in E. inversion E; subst se. cbn [se_element se_groups se_smoothing_group]. split; auto.
  rewrite (nth_is _ _ _ Hf Hok f Hs i ob n ss Hi Hn). cbn [group_set smoothing_group_set object_of].
  pose proof (element_at_element _ _ _ _ H) as He. destruct H as (after & Es & _). split.
  - apply Forall_forall. now apply (groups_of_element ss before s after).
  - apply nth_error_Some. pose proof (smoothing_of_element ss before s after Es He) as P. unfold smoothing_group. rewrite P. discriminate.
Qed.

Lemma object_geometries : forall dbg input set ob, fits input -> parse dbg input = Ok set -> In ob (objects set) ->
  concat (map shapes (geometry_set ob)) = seq 0 (length (element_set ob)).
Proof.
  intros dbg input set ob Hf Hok Hin.
  destruct (object_cases _ _ _ _ Hf Hok Hin) as (f & i & n & ss & Hs & _ & Hi & Hn).
  rewrite (nth_is _ _ _ Hf Hok f Hs i ob n ss Hi Hn). cbn [geometry_set element_set object_of].
  now rewrite shapes_drop_empty, shapes_segments.
Qed.
