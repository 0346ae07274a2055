(** The number of tokens the parser of src/obj.rs asks for. *)
From Verif Require Import ObjModel SourceProofs CountSpec CostProofs.
Local Open Scope list_scope.

Section Obj.
Context (dbg : bool) (fuel : nat).
Notation OM := (M clist error_kind).

Lemma pays_next_string : forall P, pays P 1 (fun _ => rate) (next_string : OM _).
Proof. intro. unfold next_string. pays. Qed.
Hint Resolve pays_next_string : pay.

Lemma pays_expect_tag : forall tag P, pays P 1 (fun _ => rate) (expect_tag tag : OM _).
Proof. intros. unfold expect_tag. pays. Qed.
Hint Resolve pays_expect_tag : pay.

Lemma pays_parse_f64 : forall P, pays P 1 (fun _ => rate) (parse_f64 : OM _).
Proof. intro. unfold parse_f64. pays. Qed.
Hint Resolve pays_parse_f64 : pay.

Lemma pays_parse_isize : forall P, pays P 1 (fun _ => rate) (parse_isize : OM _).
Proof. intro. unfold parse_isize, error_expected_integer. pays. Qed.
Hint Resolve pays_parse_isize : pay.

Lemma pays_try_once : forall T (f : bytes -> option T) P, pays P 2 (fun _ => 0) (try_once f : OM _).
Proof. intros. unfold try_once, advance. pays. Qed.
Hint Resolve pays_try_once : pay.

Lemma pays_parse_vertex : forall P, pays P 1 (fun _ => 10) (parse_vertex : OM _).
Proof. intro. unfold parse_vertex. pays. Qed.
Lemma pays_parse_texture_vertex : forall P, pays P 1 (fun _ => 7) (parse_texture_vertex : OM _).
Proof. intro. unfold parse_texture_vertex. pays. Qed.
Lemma pays_parse_normal_vertex : forall P, pays P 1 (fun _ => 10) (parse_normal_vertex : OM _).
Proof. intro. unfold parse_normal_vertex. pays. Qed.
Hint Resolve pays_parse_vertex pays_parse_texture_vertex pays_parse_normal_vertex : pay.

Lemma pays_skip1 : forall P, pays P 1 (fun _ => 7) (skip_one_or_more_newlines fuel : OM _).
Proof. intro. unfold skip_one_or_more_newlines. pays. Qed.
Hint Resolve pays_skip1 : pay.

(** Resolving an index does not look at the tokens. *)
Lemma pays_calculate_index : forall r v P c,
  pays P c (fun _ => c) (calculate_index dbg r v : OM _).
Proof.
  intros [lo hi] v P c. unfold calculate_index.
  eapply pays_bind; [destruct (v <=? 0)%Z; apply pays_isize_sub|apply le_n|]. intro x.
  destruct ((Z.of_nat lo <=? x) && (x <? Z.of_nat hi))%Z; [|apply pays_error].
  eapply pays_bind; [apply pays_debug_assert|apply le_n|]. intro.
  eapply pays_bind; [apply pays_isize_sub|apply le_n|]. intro. apply pays_ret. lia.
Qed.

Lemma pays_process_next : forall l r P c,
  pays P c (fun _ => c) (process_next dbg l r : OM _).
Proof.
  intros [|s l] r P c; [apply pays_ret; auto|]. unfold process_next.
  eapply pays_bind with (c0 := c) (d0 := fun _ => c); [|auto|intro; apply pays_ret; lia].
  unfold process_split. destruct s; [apply pays_ret; auto|].
  destruct (RustStd.parse_isize _); [|apply pays_error].
  eapply pays_bind; [apply pays_calculate_index|apply le_n|]. intro. apply pays_ret. lia.
Qed.

Lemma pays_vtn_index : forall a b c P, pays P 1 (fun _ => rate) (parse_vtn_index dbg a b c : OM _).
Proof.
  intros. unfold parse_vtn_index. pay_step.
  eapply pays_bind; [apply pays_process_next|apply le_n|intros [s1 ?]].
  eapply pays_bind; [apply pays_process_next|apply le_n|intros [s2 ?]].
  eapply pays_bind; [apply pays_process_next|apply le_n|intros [s3 ?]].
  destruct (_ || _); [apply pays_error|].
  destruct s1, s2, s3; pays.
Qed.
Hint Resolve pays_vtn_index : pay.

Lemma pays_vtn_indices : forall l a b c P, pays P 1 (fun _ => 0) (parse_vtn_indices dbg fuel l a b c : OM _).
Proof.
  intros. unfold parse_vtn_indices. apply pays_loop. intros [n v]. pays.
Qed.
Hint Resolve pays_vtn_indices : pay.

Lemma pays_parse_point : forall e r P, pays P 1 (fun _ => 7) (parse_point dbg fuel e r : OM _).
Proof.
  intros. unfold parse_point, error_expected_integer. pay_step. pay_step.
  eapply pays_bind; [apply pays_calculate_index|apply le_n|intro].
  apply pays_loop. intros [n el]. pay_step; [|pays].
  destruct (negb _); [|pays]. destruct (RustStd.parse_isize _); [|pays].
  eapply pays_bind; [apply pays_calculate_index|apply le_n|intro]. pays.
Qed.

Lemma pays_verify : forall l P c, pays P c (fun _ => c) (verify_vtn_indices l : OM _).
Proof.
  intros. unfold verify_vtn_indices. apply pays_for_each. intros [] i; [|apply pays_ret; lia].
  eapply pays_bind; [apply pays_index|apply le_n|intro].
  eapply pays_bind; [apply pays_index|apply le_n|intro]. apply pays_ret. lia.
Qed.

Lemma pays_parse_line : forall e a b c P, pays P 1 (fun _ => 7) (parse_line dbg fuel e a b c : OM _).
Proof.
  intros. unfold parse_line. do 4 pay_step. match goal with |- pays _ _ _ (let (_, _) := ?x in _) => destruct x as [? l] end.
  eapply pays_bind; [apply pays_verify|apply le_n|intro].
  destruct (negb _); [apply pays_error|].
  eapply pays_bind; [apply pays_len_minus|apply le_n|intro].
  eapply pays_bind; [|apply le_n|].
  { apply pays_for_each. intros el i.
    eapply pays_bind; [apply pays_index|apply le_n|intro].
    eapply pays_bind; [apply pays_index|apply le_n|intro]. apply pays_ret. apply Nat.le_add_r. }
  intro. pays.
Qed.

Lemma pays_parse_face : forall e a b c P, pays P 1 (fun _ => 7) (parse_face dbg fuel e a b c : OM _).
Proof.
  intros. unfold parse_face. do 2 pay_step. match goal with |- pays _ _ _ (let (_, _) := ?x in _) => destruct x as [? l] end.
  destruct (_ <? 3); [apply pays_error|].
  eapply pays_bind; [apply pays_verify|apply le_n|intro].
  destruct (negb _); [apply pays_error|]. unfold triangulate.
  eapply pays_bind; [apply pays_index|apply le_n|intro v].
  eapply pays_bind; [apply pays_len_minus|apply le_n|intro].
  eapply pays_bind; [|apply le_n|].
  { apply pays_for_each. intros el i.
    eapply pays_bind; [apply pays_index|apply le_n|intro].
    eapply pays_bind; [apply pays_index|apply le_n|intro]. apply pays_ret. apply Nat.le_add_r. }
  intro. pays.
Qed.
Hint Resolve pays_parse_point pays_parse_line pays_parse_face : pay.

Lemma pays_elements : forall e a b c P, pays P 2 (fun _ => 7) (parse_elements dbg fuel e a b c : OM _).
Proof. intros. unfold parse_elements. pays. Qed.

Lemma pays_names : forall l P, pays P 1 (fun _ => 0) (names_until_newline fuel l : OM _).
Proof. intros. unfold names_until_newline. apply pays_loop. intros [n ns]. pays. Qed.
Hint Resolve pays_elements pays_names : pay.

Lemma pays_groups : forall l P, pays P 1 (fun _ => 7) (parse_groups fuel l : OM _).
Proof. intros. unfold parse_groups. pays. Qed.
Lemma pays_smoothing : forall l P, pays P 1 (fun _ => 9) (parse_smoothing_group l : OM _).
Proof. intros. unfold parse_smoothing_group. pays. Qed.
Lemma pays_material : forall l P, pays P 1 (fun _ => 9) (parse_material_name l : OM _).
Proof. intros. unfold parse_material_name. pays. Qed.
Hint Resolve pays_groups pays_smoothing pays_material : pay.

Lemma pays_object_g : forall g P, pays P 1 (fun _ => 7) (parse_object_g fuel g : OM _).
Proof. intros. unfold parse_object_g. destruct (groups g); pays. Qed.
Lemma pays_object_s : forall s P, pays P 1 (fun _ => 7) (parse_object_s s : OM _).
Proof. intros. unfold parse_object_s. destruct (smoothing_groups s); pays. Qed.
Lemma pays_object_usemtl : forall m P, pays P 1 (fun _ => 7) (parse_object_usemtl m : OM _).
Proof. intros. unfold parse_object_usemtl. cbv zeta. destruct (material_names m); pays. Qed.
Lemma pays_object_v : forall st P, pays P 1 (fun _ => 7) (parse_object_v st : OM _).
Proof. intros. unfold parse_object_v. pays. Qed.
Lemma pays_object_vt : forall st P, pays P 1 (fun _ => 7) (parse_object_vt st : OM _).
Proof. intros. unfold parse_object_vt. pays. Qed.
Lemma pays_object_vn : forall st P, pays P 1 (fun _ => 7) (parse_object_vn st : OM _).
Proof. intros. unfold parse_object_vn. pays. Qed.
Lemma pays_object_element : forall st P, pays P 2 (fun _ => 7) (parse_object_element dbg fuel st : OM _).
Proof. intros. unfold parse_object_element. cbv zeta. pays. Qed.
Hint Resolve pays_object_g pays_object_s pays_object_usemtl pays_object_v pays_object_vt
  pays_object_vn pays_object_element : pay.

(** A round of the loop over the statements of an object. *)
Lemma pays_body : forall st P, pays P 3
  (fun s => match s with Continue _ => 7 | Break _ => 2 end) (parse_object_body dbg fuel st : OM _).
Proof. intros. unfold parse_object_body. pays. Qed.

Lemma pays_body_loop : forall st P, pays P 3 (fun _ => 2)
  (loop fuel (parse_object_body dbg fuel) st : OM _).
Proof.
  intros. apply pays_loop. intro. eapply pays_weaken; [apply pays_body with (P := any)|auto|auto|].
  intros []; cbn; lia.
Qed.

Lemma pays_shape_entries : forall e g s P c,
  pays P c (fun _ => c) (parse_shape_entries dbg e g s : OM _).
Proof.
  intros. unfold parse_shape_entries.
  eapply pays_bind; [|apply le_n|intro].
  { apply pays_for_each. intros t [[? ?] [? ?]]. apply pays_for_each. intros. apply pays_ret. apply le_n. }
  eapply pays_bind; [apply pays_debug_assert|apply le_n|intro].
  eapply pays_bind; [|apply le_n|intro].
  { apply pays_for_each. intros t [[? ?] ?]. apply pays_for_each. intros.
    eapply pays_bind; [apply pays_index|apply le_n|intro]. apply pays_ret. apply Nat.le_add_r. }
  eapply pays_bind; [apply pays_debug_assert|apply le_n|intro]. apply pays_ret. lia.
Qed.

Lemma pays_geometries : forall t m P c, pays P c (fun _ => c) (parse_geometries t m : OM _).
Proof.
  intros. unfold parse_geometries. apply pays_for_each. intros g [[? ?] ?].
  eapply pays_bind; [apply pays_index|apply le_n|intro]. apply pays_ret. lia.
Qed.

(** What remains after the loop. *)
Definition finish (object_name : bytes) (st : object_state) : OM (object * index_ranges) :=
  shape_entries <- parse_shape_entries dbg (elements (os_data st))
                     (group_entry_table (os_groups st))
                     (smoothing_group_entry_table (os_smoothing st)) ;;
  geometries <- parse_geometries (material_name_entry_table (os_material st))
                  (material_names (os_material st)) ;;
  let d := os_data st in
  let r := os_ranges st in
  ret (mkObject object_name (vertices d) (texture_vertices d) (normal_vertices d)
         (groups (os_groups st)) (smoothing_groups (os_smoothing st)) (elements d)
         shape_entries geometries,
       mkIndexRanges (min_vertex_index r + length (vertices d)) (max_vertex_index r)
                     (min_texture_index r + length (texture_vertices d)) (max_texture_index r)
                     (min_normal_index r + length (normal_vertices d)) (max_normal_index r)).

Lemma pays_finish : forall name st P c, pays P c (fun _ => c) (finish name st).
Proof.
  intros. unfold finish.
  eapply pays_bind; [apply pays_shape_entries|apply le_n|intro].
  eapply pays_bind; [apply pays_geometries|apply le_n|intro]. apply pays_ret. lia.
Qed.

(** The first statement of an object without an [o]. *)
Lemma pays_first : forall st (P : _ -> Prop), (forall ts, P ts -> ts <> [] /\ hd_error ts <> Some (lit "o")) ->
  pays P 3 (fun s => match s with Continue _ => 7 | Break _ => 10 end)
    (parse_object_body dbg fuel st : OM _).
Proof.
  intros st P HP. unfold parse_object_body. apply pays_peek; [lia|]. intro t.
  repeat match goal with |- pays _ _ _ (if ?x then _ else _) => destruct x; [solve [pays]|] end.
  destruct t as [t|].
  - destruct (bytes_eqb t (lit "o")) eqn:E; [|apply pays_error].
    apply bytes_eqb_eq in E. subst. apply pays_absurd. intros ts [H1 H2]. now elim (proj2 (HP _ H1)).
  - apply pays_absurd. intros [|x ts] [H1 H2]; [|discriminate]. now elim (proj1 (HP _ H1)).
Qed.

(** An object takes a token: its [o], or its first statement. *)
Lemma pays_object : forall r (P : _ -> Prop), (forall ts, P ts -> ts <> []) ->
  pays P 5 (fun _ => 7) (parse_object dbg fuel r : OM _).
Proof.
  intros r P HP. unfold parse_object, parse_object_name. apply pays_assoc.
  apply pays_peek; [lia|]. intros t. destruct (is_tok t "o") eqn:Eo.
  - eapply pays_bind with (c0 := 1) (d0 := fun _ => 10); [pays|lia|intro].
    eapply pays_bind; [apply pays_body_loop|lia|intro st].
    fold (finish a st). eapply pays_weaken; [apply pays_finish with (P := any)|auto|apply le_n|intros; cbn; lia].
  - apply pays_ret_bind. apply pays_bind with (c0 := 3) (d0 := fun _ => 6); [|lia|].
    2: { intro st. fold (finish [] st).
         eapply pays_call with (c0 := 7) (d0 := fun _ => 7); [apply pays_finish|lia|intros; lia]. }
    destruct fuel as [|n] eqn:Ef; [apply pays_diverge|]. cbn [loop]. rewrite <- Ef.
    eapply pays_bind; [apply pays_first|apply le_n|].
    { intros ts [H1 H2]. split; auto. rewrite H2. intros ->.
      unfold is_tok in Eo. rewrite bytes_eqb_refl in Eo. discriminate. }
    intros [st'|b]; [|apply pays_ret; lia].
    eapply pays_weaken with (c := 3 + 4) (d := fun _ => 2 + 4) (Q := any); [|auto|lia|intros; cbn; lia].
    apply pays_frame. apply pays_loop. intro. eapply pays_weaken; [apply pays_body with (P := any)|auto|auto|].
    intros []; cbn; lia.
Qed.

Lemma pays_objects : forall P, pays P 7 (fun _ => 0) (parse_objects dbg fuel : OM _).
Proof.
  intro P. unfold parse_objects. eapply pays_bind; [apply pays_skip|lia|intro].
  apply pays_loop. intros [res r]. apply pays_peek; [lia|]. intros [t|]; [|pays].
  eapply pays_bind; [apply pays_object|lia|intros [o r']].
  { intros [|x ts] [_ H]; discriminate. }
  pays.
Qed.

Lemma pays_libraries : forall P, pays P 4 (fun _ => 2) (parse_material_libraries fuel : OM _).
Proof.
  intro P. unfold parse_material_libraries, parse_material_library_line.
  eapply pays_bind; [apply pays_skip|lia|intro].
  apply pays_loop. intros libs. pays.
Qed.
Hint Resolve pays_objects pays_libraries : pay.

Lemma pays_objset : forall P, pays P 9 (fun _ => 0) (parse_objset dbg fuel : OM _).
Proof. intro P. unfold parse_objset. pays. Qed.

End Obj.
