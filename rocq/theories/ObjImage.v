(** Which object sets [obj::parse] can return. *)
From Verif Require Import ObjModel ObjImageSpec LexerProofs TextProofs ObjTop ObjState ObjFile ObjMeaning ObjFacts ObjMore ObjProps ObjWrite
  NumberProofs WordProofs DisplayProofs ObjWriter ObjExport.
From Coq Require Import Sorting.Sorted.
Local Open Scope list_scope.

(** * From an object to items *)

Definition find_item (es : list element) (ses : list shape_entry) (i : nat) : list item :=
  match nth_error ses i, nth_error es i with
  | Some se, Some e => [IElement (se_groups se) (se_smoothing_group se) e]
  | _, _ => []
  end.

Definition use_item (m : option bytes) : list item := match m with Some m => [IUse m] | None => [] end.

Lemma items_of_cons : forall es ses g gs,
  items_of es ses (g :: gs) = use_item (material_name g) ++ flat_map (find_item es ses) (shapes g) ++ items_of es ses gs.
Proof. intros es ses g gs. unfold items_of. cbn [flat_map]. rewrite <- app_assoc. reflexivity. Qed.

Lemma use_item_none : forall A (f : item -> list A) m, (forall x, f (IUse x) = []) -> flat_map f (use_item m) = [].
Proof. intros A f [m|] H; [cbn; now rewrite H|reflexivity]. Qed.

Lemma items_flat : forall A (f : item -> list A) es ses gs, (forall x, f (IUse x) = []) ->
  flat_map f (items_of es ses gs) = flat_map (fun i => flat_map f (find_item es ses i)) (concat (map shapes gs)).
Proof.
  intros A f es ses gs H. induction gs as [|g gs IH]; [reflexivity|]. rewrite items_of_cons. cbn [map concat].
  rewrite !flat_map_app, use_item_none by auto. cbn [app]. rewrite IH. f_equal.
  induction (shapes g) as [|i l IHl]; [reflexivity|]. cbn [flat_map]. now rewrite flat_map_app, IHl.
Qed.

Lemma flat_map_seq : forall A B (f : A -> B) (g : nat -> list B) l, (forall i a, nth_error l i = Some a -> g i = [f a]) ->
  flat_map g (seq 0 (length l)) = map f l.
Proof.
  intros A B f g l. revert g. induction l as [|a l IH]; intros g H; [reflexivity|].
  cbn [length seq flat_map map]. rewrite (H 0 a eq_refl). cbn [app]. f_equal.
  rewrite <- seq_shift, flat_map_concat_map, map_map, <- flat_map_concat_map. apply (IH (fun i => g (S i))). intros i b Hb. now apply (H (S i)).
Qed.

Section OneObject.
  Variables (es : list element) (ses : list shape_entry).
  Hypothesis Hlen : length ses = length es.

  Lemma items_elements : forall gs, concat (map shapes gs) = seq 0 (length es) -> item_elements (items_of es ses gs) = es.
  Proof.
    intros gs E. unfold item_elements. rewrite items_flat by reflexivity. rewrite E. rewrite <- (map_id es) at 2.
    apply flat_map_seq. intros i a Ha. unfold find_item. rewrite Ha. destruct (nth_error ses i) eqn:Es; [reflexivity|].
    exfalso. apply nth_error_None in Es. assert (i < length es) by (apply nth_error_Some; congruence). lia.
  Qed.

  Lemma items_marks : forall gs, concat (map shapes gs) = seq 0 (length es) ->
    item_marks (items_of es ses gs) = map (fun se => (se_groups se, se_smoothing_group se)) ses.
  Proof.
    intros gs E. unfold item_marks. rewrite items_flat by reflexivity. rewrite E, <- Hlen.
    apply flat_map_seq. intros i a Ha. unfold find_item. rewrite Ha. destruct (nth_error es i) eqn:Es; [reflexivity|].
    exfalso. apply nth_error_None in Es. assert (i < length ses) by (apply nth_error_Some; congruence). lia.
  Qed.

  Lemma find_item_one : forall i, i < length es -> exists g k e, find_item es ses i = [IElement g k e].
  Proof.
    intros i Hi. unfold find_item. destruct (nth_error es i) eqn:Ee; [|apply nth_error_None in Ee; lia].
    destruct (nth_error ses i) eqn:Es; [|apply nth_error_None in Es; lia]. eauto.
  Qed.

  Lemma segments_elements : forall l m i n items, (forall j, In j l -> j < length es) ->
    item_segments m i n (flat_map (find_item es ses) l ++ items) = item_segments m i (n + length l) items.
  Proof.
    induction l as [|j l IH]; intros m i n items H; [cbn; now rewrite Nat.add_0_r|]. cbn [flat_map].
    destruct (find_item_one j) as (g & k & e & E); [apply H; now left|]. rewrite E. cbn [app item_segments].
    rewrite IH by (intros; apply H; now right). f_equal. cbn [length]. lia.
  Qed.

  Lemma seq_app_inv : forall a b l n, a ++ b = seq l n -> a = seq l (length a) /\ b = seq (l + length a) (n - length a) /\ length a <= n.
  Proof.
    induction a as [|x a IH]; intros b l n H; cbn [app length] in *.
    - rewrite Nat.add_0_r, Nat.sub_0_r. auto with arith.
    - destruct n as [|n]; [discriminate|]. cbn [seq] in H. injection H as -> H. destruct (IH _ _ _ H) as (H1 & H2 & H3).
      cbn [seq]. rewrite <- H1. split; [reflexivity|]. split; [|lia]. rewrite H2 at 1. f_equal; lia.
  Qed.

  Lemma segments_named : forall gs m i n, Forall (fun g => material_name g <> None) gs ->
    (forall j, In j (concat (map shapes gs)) -> j < length es) ->
    concat (map shapes gs) = seq (i + n) (length (concat (map shapes gs))) ->
    item_segments m i n (items_of es ses gs) = mkGeometry m (seq i n) :: gs.
  Proof.
    induction gs as [|g gs IH]; intros m i n H Hin E; [reflexivity|]. inversion H as [|? ? H1 H2]; subst.
    rewrite items_of_cons. cbn [map concat] in E, Hin. destruct g as [[m'|] sh]; cbn [material_name shapes] in *; [|congruence].
    cbn [use_item app item_segments]. f_equal. rewrite segments_elements by (intros; apply Hin, in_app_iff; now left). cbn [plus].
    apply seq_app_inv in E. destruct E as (E1 & E2 & E3). rewrite app_length in *. rewrite IH.
    - now rewrite <- E1.
    - exact H2.
    - intros j Hj. apply Hin, in_app_iff. now right.
    - rewrite E2 at 1. f_equal. lia.
  Qed.

  Lemma drop_none : forall gs, Forall (fun g => shapes g <> []) (removelast gs) -> drop_empty gs = gs.
  Proof.
    induction gs as [|g gs IH]; intros H; [reflexivity|]. destruct gs as [|g' gs]; [reflexivity|].
    change (removelast (g :: g' :: gs)) with (g :: removelast (g' :: gs)) in H. inversion H as [|? ? H1 H2]; subst.
    change (drop_empty (g :: g' :: gs)) with (match shapes g with [] => drop_empty (g' :: gs) | _ => g :: drop_empty (g' :: gs) end).
    destruct (shapes g); [congruence|]. now rewrite IH.
  Qed.

  Lemma segments_possible : forall gs, geometries_possible (length es) gs ->
    drop_empty (item_segments None 0 0 (items_of es ses gs)) = gs.
  Proof.
    intros gs [E H]. destruct gs as [|g gs]; [destruct H|]. destruct H as (H1 & H2 & H3).
    assert (Hin : forall j, In j (concat (map shapes (g :: gs))) -> j < length es) by (intros j Hj; rewrite E in Hj; apply in_seq in Hj; lia).
    destruct (material_name g) as [m|] eqn:Em.
    - rewrite segments_named.
      + change (drop_empty (mkGeometry None (seq 0 0) :: g :: gs)) with (drop_empty (g :: gs)). now apply drop_none.
      + constructor; [congruence|exact H2].
      + exact Hin.
      + rewrite E, seq_length. reflexivity.
    - rewrite items_of_cons, Em. cbn [use_item app]. cbn [map concat] in E, Hin.
      rewrite segments_elements by (intros; apply Hin, in_app_iff; now left). cbn [plus].
      apply seq_app_inv in E. destruct E as (E1 & E2 & E3). rewrite segments_named.
      + rewrite <- E1. destruct g as [gm gsh]. cbn [material_name shapes] in *. subst gm. now apply drop_none.
      + exact H2.
      + intros j Hj. apply Hin, in_app_iff. now right.
      + rewrite E2 at 1. rewrite E2, seq_length. reflexivity.
  Qed.

  Lemma mark_entries_ok : forall l i, map se_element l = seq i (length l) ->
    mark_entries i (map (fun se => (se_groups se, se_smoothing_group se)) l) = l.
  Proof.
    induction l as [|[e g k] l IH]; intros i H; [reflexivity|]. cbn [map length seq mark_entries se_groups se_smoothing_group se_element] in *.
    injection H as -> H. now rewrite IH.
  Qed.
End OneObject.

Lemma smoothing_from_sorted : forall n ks used, Sorted le ks -> Forall (fun k => k < n) ks -> (forall k, hd_error ks = Some k -> used <= S k) -> smoothing_from n used ks.
Proof.
  intros n ks. induction ks as [|k ks IH]; intros used Hs Hf Hu; [exact I|]. inversion Hs; subst. inversion Hf; subst. cbn [smoothing_from].
  split; [now apply Hu|]. split; [assumption|]. apply IH; auto. intros k' E. destruct ks as [|k'' ks]; [discriminate|]. injection E as ->.
  match goal with H : HdRel _ _ _ |- _ => inversion H; subst end. lia.
Qed.

(** * From an object to statements *)

Definition data_statement (s : statement) : Prop := match s with SVertex _ | STexture _ | SNormal _ => True | _ => False end.

Lemma data_silent : forall base pre, Forall data_statement pre ->
  all_groups pre = [] /\ all_smoothing_groups pre = [] /\ all_elements base pre = [] /\
  (forall ss before i, shapes_from before base (pre ++ ss) i = shapes_from (before ++ pre) base ss i) /\
  (forall ss m i n, segments m base (pre ++ ss) i n = segments m base ss i n).
Proof.
  intros base pre H. induction H as [|s pre Hs H (I1 & I2 & I3 & I4 & I5)].
  - repeat split; intros; now rewrite ?app_nil_r.
  - destruct s; try destruct Hs; (split; [exact I1|]; split; [exact I2|]; split; [exact I3|]; split).
    all: intros; cbn [app shapes_from segments elements_of length seq map]; rewrite Nat.add_0_r, ?I4, ?I5, <- ?app_assoc; reflexivity.
Qed.

Definition data_lines (ob : object) : list statement :=
  map SVertex (vertex_set ob) ++ map STexture (texture_vertex_set ob) ++ map SNormal (normal_vertex_set ob).

Lemma data_lines_data : forall ob, Forall data_statement (data_lines ob).
Proof.
  intros ob. assert (K : forall A (f : A -> statement) l, (forall x, data_statement (f x)) -> Forall data_statement (map f l)).
  { intros A f l H. apply Forall_forall. intros s Hs. apply in_map_iff in Hs. now destruct Hs as (x & <- & _). }
  unfold data_lines. rewrite !Forall_app. repeat split; apply K; exact (fun _ => I).
Qed.

Lemma export_object_eq : forall base ob, export_object base ob =
  data_lines ob ++ export base (group_set ob) (smoothing_group_set ob) 0 None 0 (items_of (element_set ob) (shape_set ob) (geometry_set ob)).
Proof. intros. unfold export_object, data_lines. now rewrite <- !app_assoc. Qed.

Section ExportObject.
  Variables (P : bytes -> Prop) (base : counts) (ob : object).
  Hypothesis Hp : object_possible P ob.

  Let items := items_of (element_set ob) (shape_set ob) (geometry_set ob).
  Let rest := export base (group_set ob) (smoothing_group_set ob) 0 None 0 items.

  Lemma possible_length : length (shape_set ob) = length (element_set ob).
  Proof. rewrite <- (map_length se_element), (possible_shapes _ _ Hp). apply seq_length. Qed.

  Lemma export_facts :
    all_groups (data_lines ob ++ rest) = group_set ob /\ all_smoothing_groups (data_lines ob ++ rest) = smoothing_group_set ob /\
    (forall i, shapes_from (data_lines ob) base rest i = mark_entries i (item_marks items)) /\
    all_elements base rest = item_elements items /\
    (forall m i n, segments m base rest i n = item_segments m i n items) /\
    Forall (exported base (group_set ob) (smoothing_group_set ob) items) rest /\
    (forall it, In it items -> In (match it with IUse m => SUse m | IElement _ _ e => element_line base e end) rest).
  Proof.
    pose proof possible_length as HL. destruct (possible_geometries _ _ Hp) as [EC _].
    destruct (data_silent base _ (data_lines_data ob)) as (D1 & D2 & _).
    apply export_ok.
    - split; auto; [lia|discriminate|lia].
    - unfold items. rewrite items_marks by auto. rewrite map_map. exact (possible_shape_groups _ _ Hp).
    - unfold items. rewrite items_marks by auto. rewrite map_map. cbn [snd]. destruct (possible_shape_smoothing _ _ Hp). apply smoothing_from_sorted; auto. intros; lia.
    - unfold items. rewrite items_elements by auto. eapply Forall_impl; [|exact (possible_elements _ _ Hp)]. intros e (_ & _ & K). exact K.
  Qed.

  Lemma export_object_means : object_of base (ObjTypes.name ob) (export_object base ob) = ob.
  Proof.
    rewrite export_object_eq. fold items. fold rest.
    pose proof possible_length as HL. destruct (possible_geometries _ _ Hp) as [EC _].
    destruct (data_silent base _ (data_lines_data ob)) as (D1 & D2 & D3 & D4 & D5).
    destruct export_facts as (X1 & X2 & X3 & X4 & X5 & X6 & X7).
    assert (Hnone : forall A (f : statement -> list A), (forall s, ~ data_statement s -> f s = []) -> flat_map f rest = []).
    { intros A f Hf. apply flat_map_none. intros s Hs. apply Hf. rewrite Forall_forall in X6. apply X6 in Hs. intros K. destruct s; try destruct K; destruct Hs. }
    assert (Z : forall A (f : statement -> list A) B (g : B -> statement) l, (forall x, f (g x) = []) -> flat_map f (map g l) = []).
    { intros A f B g l K. apply flat_map_none. intros x Hx. apply in_map_iff in Hx. destruct Hx as (y & <- & _). auto. }
    assert (O : forall A (f : statement -> list A) (g : A -> statement) l, (forall x, f (g x) = [x]) -> flat_map f (map g l) = l).
    { intros A f g l K. rewrite (flat_map_one _ _ _ f g (fun x => x)) by auto. apply map_id. }
    unfold object_of. rewrite X1, X2, D4, D5, X5. cbn [app]. rewrite X3.
    unfold items at 1. rewrite items_marks by auto. rewrite mark_entries_ok by (rewrite (possible_shapes _ _ Hp); now rewrite HL).
    unfold items at 1. rewrite segments_possible by (auto; exact (possible_geometries _ _ Hp)).
    assert (E1 : all_vertices (data_lines ob ++ rest) = vertex_set ob).
    { unfold all_vertices. rewrite flat_map_app, Hnone by (intros [] K; auto; destruct (K I)).
      unfold data_lines. rewrite !flat_map_app, O by reflexivity. rewrite !Z by reflexivity. now rewrite !app_nil_r. }
    assert (E2 : all_texture_vertices (data_lines ob ++ rest) = texture_vertex_set ob).
    { unfold all_texture_vertices. rewrite flat_map_app, Hnone by (intros [] K; auto; destruct (K I)).
      unfold data_lines. rewrite !flat_map_app, (Z _ _ _ SVertex) by reflexivity. rewrite O by reflexivity. rewrite !Z by reflexivity. now rewrite !app_nil_r. }
    assert (E3 : all_normals (data_lines ob ++ rest) = normal_vertex_set ob).
    { unfold all_normals. rewrite flat_map_app, Hnone by (intros [] K; auto; destruct (K I)).
      unfold data_lines. rewrite !flat_map_app, (Z _ _ _ SVertex), (Z _ _ _ STexture) by reflexivity. rewrite O by reflexivity. now rewrite !app_nil_r. }
    assert (E4 : all_elements base (data_lines ob ++ rest) = element_set ob).
    { unfold all_elements in *. rewrite flat_map_app, D3, X4. apply items_elements; auto. }
    rewrite E1, E2, E3, E4. now destruct ob.
  Qed.

  Lemma export_object_count : count_all base (export_object base ob) = add_counts base ob.
  Proof.
    pose proof export_object_means as E. rewrite count_lengths. unfold add_counts.
    f_equal; f_equal; [rewrite <- E at 2|rewrite <- E at 2|rewrite <- E at 2]; reflexivity.
  Qed.

  (** ** The statements are well formed *)

  Lemma proper_constant : forall ss now, (forall s, In s ss -> count now s = now) -> Forall (proper base now) ss -> proper_body base now ss.
  Proof.
    induction ss as [|s ss IH]; intros now Hc H; [exact I|]. inversion H; subst. cbn [proper_body]. split; [assumption|].
    rewrite Hc by now left. apply IH; auto. intros; apply Hc; now right.
  Qed.

  Lemma proper_app : forall a b now, proper_body base now (a ++ b) <-> proper_body base now a /\ proper_body base (count_all now a) b.
  Proof.
    induction a as [|s a IH]; intros b now; [cbn; tauto|]. cbn [app proper_body]. rewrite IH.
    change (count_all now (s :: a)) with (count_all (count now s) a). tauto.
  Qed.

  Lemma data_proper : forall ss now, Forall data_statement ss -> proper_body base now ss.
  Proof. intros ss now H. revert now. induction H as [|s ss Hs H IH]; intros now; [exact I|]. split; [destruct s; try destruct Hs; exact I|apply IH]. Qed.

  Lemma global_scope : forall i, index_in (length (vertex_set ob)) (length (texture_vertex_set ob)) (length (normal_vertex_set ob)) i ->
    ref_in_scope base (add_counts base ob) (global_ref base i).
  Proof.
    intros i (Hv & Ht & Hn). unfold ref_in_scope, add_counts, in_scope. destruct i; cbn in *;
      try specialize (Ht _ eq_refl); try specialize (Hn _ eq_refl); unfold in_scope; repeat split; auto; lia.
  Qed.

  Lemma global_form : forall i, form (global_ref base i) = index_form i.
  Proof. now intros []. Qed.

  Lemma element_line_proper : forall e, element_in (length (vertex_set ob)) (length (texture_vertex_set ob)) (length (normal_vertex_set ob)) e ->
    proper base (add_counts base ob) (element_line base e).
  Proof.
    intros e (Hi & Hf & Hs). rewrite Forall_forall in Hi. destruct e as [a|a b|a b c]; cbn [draw_element corners element_line proper] in *.
    - split; [discriminate|]. constructor; [|constructor]. apply (global_scope a). apply Hi. now left.
    - split; [cbn; lia|]. split.
      + intros r1 r2 [<-|[<-|[]]] [<-|[<-|[]]]; rewrite !global_form; apply Hf; cbn; auto.
      + repeat (apply Forall_cons; [apply global_scope, Hi; cbn; auto|]). apply Forall_nil.
    - split; [cbn; lia|]. split.
      + intros r1 r2 [<-|[<-|[<-|[]]]] [<-|[<-|[<-|[]]]]; rewrite !global_form; apply Hf; cbn; auto.
      + repeat (apply Forall_cons; [apply global_scope, Hi; cbn; auto|]). apply Forall_nil.
  Qed.

  Lemma export_proper : proper_body base base (export_object base ob).
  Proof.
    pose proof export_object_count as EC. rewrite export_object_eq in *. fold items in EC |- *. fold rest in EC |- *.
    destruct export_facts as (X1 & X2 & X3 & X4 & X5 & X6 & X7). rewrite Forall_forall in X6.
    assert (Hc : forall now s, In s rest -> count now s = now).
    { intros now s Hs. apply X6 in Hs. destruct s; try destruct Hs; reflexivity. }
    assert (Hr : forall now, count_all now rest = now).
    { intros now. clear - Hc. assert (K : forall ss, (forall s, In s ss -> In s rest) -> count_all now ss = now).
      { induction ss as [|s ss IH]; intros Hin; [reflexivity|]. change (count_all now (s :: ss)) with (count_all (count now s) ss).
        rewrite Hc by (apply Hin; now left). apply IH. intros; apply Hin; now right. }
      apply K. auto. }
    rewrite count_all_app, Hr in EC. apply proper_app. split; [apply data_proper, data_lines_data|]. rewrite EC.
    apply proper_constant; auto. apply Forall_forall. intros s Hs. apply X6 in Hs.
    destruct s; try exact I; destruct Hs as (e & He & ->); apply element_line_proper;
      unfold items in He; rewrite items_elements in He by (apply possible_length || apply (possible_geometries _ _ Hp));
      pose proof (possible_elements _ _ Hp) as HE; rewrite Forall_forall in HE; auto.
  Qed.

  Lemma export_writable : Forall (statement_writable P) (export_object base ob).
  Proof.
    rewrite export_object_eq. fold items. fold rest. destruct export_facts as (X1 & X2 & X3 & X4 & X5 & X6 & X7).
    apply Forall_app. split.
    - unfold data_lines. rewrite !Forall_app, !Forall_map. repeat split; [exact (possible_vertices _ _ Hp)|exact (possible_texture_vertices _ _ Hp)|exact (possible_normals _ _ Hp)].
    - eapply Forall_impl; [|exact X6]. intros s Hs. destruct s; cbn in Hs |- *; try destruct Hs; try exact I.
      + pose proof (possible_groups _ _ Hp) as K. rewrite Forall_forall in K. apply Forall_forall. intros x Hx. apply K. auto.
      + pose proof (possible_smoothing_groups _ _ Hp) as K. rewrite Forall_forall in K. auto.
      + assert (K : exists g, In g (geometry_set ob) /\ material_name g = Some material).
        { unfold items, items_of in Hs. apply in_flat_map in Hs. destruct Hs as (g & Hg & Hs). exists g. split; auto.
          apply in_app_iff in Hs. destruct Hs as [Hs|Hs].
          - destruct (material_name g); [|destruct Hs]. destruct Hs as [Hs|[]]. congruence.
          - apply in_flat_map in Hs. destruct Hs as (i & _ & Hs). destruct (nth_error (shape_set ob) i); [destruct (nth_error (element_set ob) i)|]; try destruct Hs as [Hs|[]]; [discriminate|destruct Hs|destruct Hs]. }
        destruct K as (g & Hg & E). eapply (possible_materials _ _ Hp); eauto.
  Qed.

  Lemma export_drawable : drawable (ObjTypes.name ob, export_object base ob).
  Proof.
    unfold drawable. cbn [snd]. rewrite export_object_eq. fold items. fold rest.
    destruct export_facts as (X1 & X2 & X3 & X4 & X5 & X6 & X7).
    pose proof (possible_geometries _ _ Hp) as [EC HG]. destruct (geometry_set ob) as [|g gs] eqn:EG; [destruct HG|]. destruct HG as (_ & _ & HG).
    destruct (material_name g) as [m|] eqn:Em.
    - exists (SUse m). split; [|right; now exists m]. apply in_app_iff. right. apply (X7 (IUse m)).
      unfold items. rewrite ?EG, items_of_cons, Em. cbn. now left.
    - assert (Hne : element_set ob <> []).
      { intros E. rewrite E in EC. cbn [map concat length seq] in EC. apply app_eq_nil in EC. destruct EC as [EC _]. now apply HG. }
      destruct (element_set ob) as [|e es] eqn:Ee; [congruence|].
      assert (Hin : In e (item_elements items)).
      { unfold items. rewrite ?EG, ?Ee. rewrite items_elements; [now left| |exact EC]. rewrite <- Ee. apply possible_length. }
      unfold item_elements in Hin. apply in_flat_map in Hin. destruct Hin as ([m|gr k e'] & Hin & He); [destruct He|]. destruct He as [->|[]].
      exists (element_line base e). split; [|left; apply element_line_is]. apply in_app_iff. right. apply (X7 _ Hin).
  Qed.
End ExportObject.

(** * Sets *)

Lemma export_objects_ok : forall P obs base, Forall (object_possible P) obs ->
  objects_of base (export_objects base obs) = obs /\ proper_objects base (export_objects base obs) /\
  Forall drawable (export_objects base obs) /\ Forall (fun o => Forall (statement_writable P) (snd o)) (export_objects base obs) /\
  map fst (export_objects base obs) = map ObjTypes.name obs.
Proof.
  intros P obs base H. revert base. induction H as [|ob obs H1 H IH]; intros base; [repeat split; constructor|].
  destruct (IH (add_counts base ob)) as (I1 & I2 & I3 & I4 & I5). pose proof (export_object_count P base ob H1) as EC.
  cbn [export_objects objects_of proper_objects map fst]. rewrite EC, I1, I5. rewrite (export_object_means P) by auto.
  split; [reflexivity|]. split; [split; [eapply export_proper; eauto|exact I2]|].
  split; [constructor; auto; eapply export_drawable; eauto|]. split; [constructor; auto; eapply export_writable; eauto|reflexivity].
Qed.

Theorem write_set_read : forall dbg set, set_possible is_token set -> fits (write_set set) -> parse dbg (write_set set) = Ok set.
Proof.
  intros dbg [libs obs] (H1 & H2 & H3) Hf. cbn [material_libraries objects] in *.
  destruct (export_objects_ok is_token obs no_counts H3) as (E1 & E2 & E3 & E4 & E5). unfold write_set in *. cbn [material_libraries objects] in *.
  rewrite write_file_read; auto.
  - unfold file_means. cbn [file_libraries file_objects]. now rewrite E1.
  - split; auto.
  - split; [exact H1|]. cbn [file_libraries file_objects]. split; [now rewrite E5|exact E4].
Qed.

(** ** As UTF-8 *)

Lemma ascii_utf8 : forall c s, byte_in 0 127 c -> valid_utf8 s -> valid_utf8 (c :: s).
Proof. intros c s H Hs. apply (valid_char [c] s); auto. now constructor. Qed.

Lemma all_ascii_utf8 : forall s, forallb (fun c => N_of_ascii c <? 128)%N s = true -> valid_utf8 s.
Proof.
  induction s as [|c s IH]; [constructor|]. cbn [forallb]. intros H. apply andb_prop in H. destruct H as [H1 H2].
  apply ascii_utf8; auto. unfold byte_in. apply N.ltb_lt in H1. lia.
Qed.

Lemma unwords_utf8 : forall ws, Forall valid_utf8 ws -> valid_utf8 (unwords ws).
Proof.
  intros ws H. induction H as [|w ws Hw H IH]; [constructor|]. destruct ws as [|w' ws]; [exact Hw|].
  change (unwords (w :: w' :: ws)) with (w ++ " "%char :: unwords (w' :: ws)). apply utf8_app; auto. apply ascii_utf8; auto.
  vm_compute. split; discriminate.
Qed.

Lemma unlines_utf8 : forall ls, Forall valid_utf8 ls -> valid_utf8 (unlines ls).
Proof.
  intros ls H. induction H as [|l ls Hl H IH]; [constructor|]. unfold unlines. cbn [flat_map]. apply utf8_app; auto. apply utf8_app; auto.
  apply ascii_utf8; [|constructor]. vm_compute. split; discriminate.
Qed.

Lemma show_ref_plain : forall r, forallb plain (show_ref r) = true.
Proof.
  intros [v t n]. unfold show_ref, numeral. cbn [ref_v ref_t ref_n]. destruct t, n; rewrite ?forallb_app, ?show_N_plain; reflexivity.
Qed.

Lemma statement_line_utf8 : forall s, statement_writable (fun n => is_token n /\ valid_utf8 n) s -> Forall valid_utf8 (statement_line s).
Proof.
  intros s H.
  assert (M : forall A (f : A -> bytes) l, (forall x, forallb plain (f x) = true) -> Forall valid_utf8 (map f l)).
  { intros A f l K. apply Forall_forall. intros t Ht. apply in_map_iff in Ht. destruct Ht as (x & <- & _). now apply plain_utf8. }
  destruct s as [v|v|v|names|n|m|ks|rs|rs]; cbn [statement_line statement_writable] in *; (apply Forall_cons; [now apply plain_utf8|]).
  - repeat (apply Forall_cons; [apply show_f64_utf8|]); apply Forall_nil.
  - repeat (apply Forall_cons; [apply show_f64_utf8|]); apply Forall_nil.
  - repeat (apply Forall_cons; [apply show_f64_utf8|]); apply Forall_nil.
  - eapply Forall_impl; [|exact H]. intros a [[_ K] _]. exact K.
  - apply Forall_cons; [apply plain_utf8, show_N_plain|apply Forall_nil].
  - apply Forall_cons; [apply H|apply Forall_nil].
  - apply M. intros k. apply show_N_plain.
  - apply M, show_ref_plain.
  - apply M, show_ref_plain.
Qed.

Lemma write_file_utf8 : forall f, writable (fun n => is_token n /\ valid_utf8 n) f -> valid_utf8 (write_file f).
Proof.
  intros [libs os] (H1 & H2 & H3). unfold write_file, file_lines. cbn [file_libraries file_objects] in *. apply unlines_utf8.
  rewrite Forall_map, Forall_app. split.
  - rewrite Forall_map. eapply Forall_impl; [|exact H1]. intros l [[_ Hl] _]. apply unwords_utf8.
    apply Forall_cons; [now apply plain_utf8|]. apply Forall_cons; [exact Hl|apply Forall_nil].
  - apply Forall_forall. intros ws Hws. apply unwords_utf8. apply in_flat_map in Hws. destruct Hws as ([n ss] & Ho & Hws).
    rewrite Forall_forall in H3. specialize (H3 _ Ho). cbn [fst snd object_lines] in *. unfold object_lines in Hws. cbn [fst snd] in Hws.
    apply in_app_iff in Hws. destruct Hws as [Hws|Hws].
    + assert (Hn : n = [] \/ valid_utf8 n).
      { destruct os as [|[n0 ss0] os]; [destruct Ho|]. destruct H2 as [H2 H2']. cbn [map fst] in *. destruct Ho as [Ho|Ho].
        - injection Ho as -> ->. destruct H2 as [->|[_ H2]]; auto.
        - right. rewrite Forall_forall in H2'. apply (H2' n). apply in_map_iff. now exists (n, ss). }
      destruct n as [|c n]; [destruct Hws|]. destruct Hws as [<-|[]]. destruct Hn as [Hn|Hn]; [discriminate|].
      apply Forall_cons; [now apply plain_utf8|]. apply Forall_cons; [exact Hn|apply Forall_nil].
    + apply in_map_iff in Hws. destruct Hws as (s & <- & Hs). rewrite Forall_forall in H3. apply statement_line_utf8. auto.
Qed.

Theorem write_set_utf8 : forall set, set_possible (fun n => is_token n /\ valid_utf8 n) set -> valid_utf8 (write_set set).
Proof.
  intros [libs obs] (H1 & H2 & H3). cbn [material_libraries objects] in *. apply write_file_utf8.
  destruct (export_objects_ok _ obs no_counts H3) as (E1 & E2 & E3 & E4 & E5). cbn [material_libraries objects].
  split; [exact H1|]. cbn [file_libraries file_objects]. split; [now rewrite E5|exact E4].
Qed.
