(** The materials that OBJ texts can refer to are those that MTL texts can define. *)
From Verif Require Import UseSpec ObjModel ObjView ObjImageSpec LexerProofs ObjTop WordProofs ObjImage ObjImageOnly.
From Verif Require MtlTypes MtlModel MtlWriteSpec MtlWrite.
From Coq Require Import Sorting.Sorted.
Local Open Scope list_scope.

Lemma used_set_using : forall libraries ns, materials_used (set_using libraries ns) = ns.
Proof.
  intros libraries ns. unfold materials_used. cbn [set_using objects flat_map point_each geometry_set material_name app].
  rewrite app_nil_r. generalize 1. induction ns as [|n ns IH]; intros k; [reflexivity|].
  cbn [length seq combine map flat_map material_name fst snd app]. f_equal. apply IH.
Qed.

Lemma same_groups : forall n used k, groups_from n used (Some [0]) (repeat [0] k).
Proof. induction k; cbn; constructor; auto. Qed.

Lemma map_const : forall (A B : Type) (b : B) (l : list A), map (fun _ => b) l = repeat b (length l).
Proof. induction l; cbn; congruence. Qed.

Lemma point_each_possible : forall (P : bytes -> Prop) ns, Forall P ns -> P (lit "default") -> object_possible P (point_each ns).
Proof.
  intros P ns H Hd. unfold point_each. split;
    cbn [vertex_set texture_vertex_set normal_vertex_set group_set smoothing_group_set element_set shape_set geometry_set]; auto.
  - constructor; [|constructor]. repeat split; reflexivity.
  - constructor; [|constructor]. split; [exact Hd|discriminate].
  - constructor; [reflexivity|constructor].
  - apply Forall_forall. intros e He. apply repeat_spec in He. subst e. split; [|split].
    + constructor; [|constructor]. split; [cbn; auto|]. split; intros k E; discriminate E.
    + intros a b [<-|[]] [<-|[]]. reflexivity.
    + intros a E. injection E as <-. now exists 0.
  - rewrite map_map. cbn [se_element]. rewrite map_id, repeat_length. reflexivity.
  - rewrite map_map. cbn [se_groups]. rewrite map_const, seq_length. cbn [repeat length].
    apply (groups_next 1 0 None 0 1); auto. apply same_groups.
  - rewrite map_map. cbn [se_smoothing_group]. rewrite map_const, seq_length. split.
    + induction (S (length ns)) as [|k IH]; cbn; constructor; auto. destruct k; cbn; constructor; auto.
    + apply Forall_forall. intros k Hk. apply repeat_spec in Hk. subst k. cbn. auto.
  - rewrite repeat_length. unfold geometries_possible. split; [|split; [|split]].
    + cbn [map shapes concat app seq]. f_equal. rewrite map_map. cbn [shapes]. generalize 1.
      clear. induction ns as [|n ns IH]; intros k; [reflexivity|]. cbn. f_equal. apply IH.
    + apply Forall_forall. intros g Hg.
      assert (K : forall (A : Type) (x : A) l, In x (removelast l) -> In x l).
      { intros A x l. induction l as [|a [|b l] IH]; [auto|intros []|]. intros [E|K]; [now left|right; auto]. }
      apply K in Hg. destruct Hg as [<-|Hg]; [discriminate|]. apply in_map_iff in Hg. destruct Hg as (p & <- & _). discriminate.
    + apply Forall_forall. intros g Hg. apply in_map_iff in Hg. destruct Hg as (p & <- & _). discriminate.
    + discriminate.
  - intros g m [<-|Hg] E; [discriminate|]. apply in_map_iff in Hg. destruct Hg as ((i & n) & <- & Hin). cbn in E. injection E as <-.
    apply in_combine_r in Hin. rewrite Forall_forall in H. auto.
Qed.

Definition utf8_token (n : bytes) : Prop := is_token n /\ valid_utf8 n.

Lemma default_token : utf8_token (lit "default").
Proof. split; [apply word_token, lit_word; [discriminate|reflexivity]|now apply plain_utf8]. Qed.

Lemma used_tokens : forall P set, set_possible P set -> Forall P (materials_used set).
Proof.
  intros P set (_ & _ & H). apply Forall_flat_map. eapply Forall_impl; [|exact H]. intros ob Hob. apply Forall_flat_map.
  apply Forall_forall. intros g Hg. destruct (material_name g) as [m|] eqn:E; auto. constructor; auto. eapply possible_materials; eauto.
Qed.

Definition named (n : bytes) : MtlTypes.material := MtlModel.set_name MtlTypes.material_new n.

Lemma named_names : forall ns, map MtlTypes.name (map named ns) = ns.
Proof. intros ns. rewrite map_map. apply map_id. Qed.

Lemma named_f64 : forall ns, Forall MtlWriteSpec.material_f64 (map named ns).
Proof.
  intros ns. apply Forall_map, Forall_forall. intros n _. split; [intros []; repeat split; reflexivity|].
  split; [reflexivity|]. split; [reflexivity|]. intros x E. discriminate E.
Qed.

Lemma named_are : forall (P : bytes -> Prop) ns, Forall P ns -> Forall (MtlWriteSpec.names_are P) (map named ns).
Proof. intros P ns H. apply Forall_map. eapply Forall_impl; [|exact H]. intros n Hn. split; [exact Hn|]. intros [] m E; discriminate E. Qed.

Lemma defined_are : forall (P : bytes -> Prop) ms, Forall (MtlWriteSpec.names_are P) ms -> Forall P (map MtlTypes.name ms).
Proof. intros P ms H. apply Forall_map. eapply Forall_impl; [|exact H]. now intros m [K _]. Qed.

(** ** Both directions *)

Theorem library_for : forall dbg input set, fits input -> valid_utf8 input -> parse dbg input = Ok set ->
  exists library ms, valid_utf8 library /\ MtlModel.parse library = Ok (MtlTypes.mkMaterialSet ms) /\
    map MtlTypes.name ms = materials_used set.
Proof.
  intros dbg input set Hf Hu Hok. apply parsed_possible_utf8 in Hok; auto. apply used_tokens in Hok.
  destruct (proj2 (MtlWrite.readable_str_iff (map named (materials_used set)))) as (library & H1 & H2).
  - split; [apply named_f64|now apply named_are].
  - exists library, (map named (materials_used set)). split; [exact H1|]. split; [exact H2|]. apply named_names.
Qed.

Theorem user_of : forall dbg library ms libraries, valid_utf8 library ->
  MtlModel.parse library = Ok (MtlTypes.mkMaterialSet ms) ->
  Forall (fun n => (is_token n /\ valid_utf8 n) /\ n <> nl) libraries ->
  let set := set_using libraries (map MtlTypes.name ms) in
  fits (write_set set) -> valid_utf8 (write_set set) /\ parse dbg (write_set set) = Ok set.
Proof.
  intros dbg library ms libraries Hu Hok Hl set Hf. apply every_set; auto.
  destruct (proj1 (MtlWrite.readable_str_iff ms)) as [_ H]; [exists library; auto|]. apply defined_are in H.
  split; [exact Hl|]. split; [cbn; auto|]. constructor; [|constructor]. apply point_each_possible; [exact H|exact default_token].
Qed.
