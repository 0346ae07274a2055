(** The loop of [Parser::parse_object] over a token list. *)
From Verif Require Import ObjModel SourceProofs ConsumeProofs RunProofs ObjSpec ObjErrorSpec ObjAccept ObjElements.
Local Open Scope list_scope.

(** * The effect of a statement on the local state *)

Definition base_of (st : object_state) : counts :=
  let r := os_ranges st in mkCounts (min_vertex_index r) (min_texture_index r) (min_normal_index r).
Definition now_of (st : object_state) : counts :=
  let r := os_ranges st in mkCounts (max_vertex_index r) (max_texture_index r) (max_normal_index r).

Definition group_names (names : list bytes) (g : group_state) : group_state :=
  match groups g with
  | [] => mkGroupState (group_entry_table g) (groups g ++ names)
            (min_element_group_index g) (max_element_group_index g)
            (min_group_index g) (max_group_index g + length names)
  | _ => mkGroupState
           (group_entry_table g ++ [((min_element_group_index g, max_element_group_index g),
                                     (min_group_index g, max_group_index g))])
           (groups g ++ names)
           (max_element_group_index g) (max_element_group_index g)
           (max_group_index g) (max_group_index g + length names)
  end.

Definition group_elements (k : nat) (g : group_state) : group_state :=
  let g := match groups g with
           | [] => mkGroupState (group_entry_table g) (groups g ++ [group_default])
                     (min_element_group_index g) (max_element_group_index g) 0 1
           | _ => g
           end in
  mkGroupState (group_entry_table g) (groups g)
    (min_element_group_index g) (max_element_group_index g + k) (min_group_index g) (max_group_index g).

Definition smooth_number (n : N) (s : smoothing_state) : smoothing_state :=
  match smoothing_groups s with
  | [] => mkSmoothingState (smoothing_group_entry_table s) (smoothing_groups s ++ [n])
            (min_element_smoothing_group_index s) (max_element_smoothing_group_index s) 0
  | _ => mkSmoothingState
           (smoothing_group_entry_table s ++
              [((min_element_smoothing_group_index s, max_element_smoothing_group_index s),
                smoothing_group_index s)])
           (smoothing_groups s ++ [n])
           (max_element_smoothing_group_index s) (max_element_smoothing_group_index s)
           (smoothing_group_index s + 1)
  end.

Definition smooth_elements (k : nat) (s : smoothing_state) : smoothing_state :=
  let s := match smoothing_groups s with
           | [] => mkSmoothingState (smoothing_group_entry_table s)
                     (smoothing_groups s ++ [smoothing_group_default])
                     (min_element_smoothing_group_index s) (max_element_smoothing_group_index s) 0
           | _ => s
           end in
  mkSmoothingState (smoothing_group_entry_table s) (smoothing_groups s)
    (min_element_smoothing_group_index s) (max_element_smoothing_group_index s + k)
    (smoothing_group_index s).

Definition use_material (name : bytes) (m : material_state) : material_state :=
  mkMaterialState
    (if min_element_material_name_index m =? max_element_material_name_index m
     then material_name_entry_table m
     else material_name_entry_table m ++
            [((min_element_material_name_index m, max_element_material_name_index m),
              material_name_index m)])
    (material_names m ++ [Some name])
    (max_element_material_name_index m) (max_element_material_name_index m)
    (match material_names m with [] => material_name_index m | _ => material_name_index m + 1 end).

Definition material_elements (k : nat) (m : material_state) : material_state :=
  let m := match material_names m with
           | [] => mkMaterialState (material_name_entry_table m) (material_names m ++ [None])
                     (min_element_material_name_index m) (max_element_material_name_index m) 0
           | _ => m
           end in
  mkMaterialState (material_name_entry_table m) (material_names m)
    (min_element_material_name_index m) (max_element_material_name_index m + k)
    (material_name_index m).

Definition push_element (s : statement) (st : object_state) : object_state :=
  let es := elements_of (base_of st) s in
  let d := os_data st in
  mkObjectState
    (mkGeometryData (vertices d) (texture_vertices d) (normal_vertices d) (elements d ++ es))
    (group_elements (length es) (os_groups st))
    (smooth_elements (length es) (os_smoothing st))
    (material_elements (length es) (os_material st))
    (os_ranges st).

Definition apply_statement (s : statement) (st : object_state) : object_state :=
  let d := os_data st in
  let r := os_ranges st in
  match s with
  | SVertex v =>
      set_ranges (set_data st (mkGeometryData (vertices d ++ [v]) (texture_vertices d)
                                              (normal_vertices d) (elements d)))
        (mkIndexRanges (min_vertex_index r) (max_vertex_index r + 1)
                       (min_texture_index r) (max_texture_index r)
                       (min_normal_index r) (max_normal_index r))
  | STexture v =>
      set_ranges (set_data st (mkGeometryData (vertices d) (texture_vertices d ++ [v])
                                              (normal_vertices d) (elements d)))
        (mkIndexRanges (min_vertex_index r) (max_vertex_index r)
                       (min_texture_index r) (max_texture_index r + 1)
                       (min_normal_index r) (max_normal_index r))
  | SNormal v =>
      set_ranges (set_data st (mkGeometryData (vertices d) (texture_vertices d)
                                              (normal_vertices d ++ [v]) (elements d)))
        (mkIndexRanges (min_vertex_index r) (max_vertex_index r)
                       (min_texture_index r) (max_texture_index r)
                       (min_normal_index r) (max_normal_index r + 1))
  | SGroup names => set_groups st (group_names names (os_groups st))
  | SSmooth n => set_smoothing st (smooth_number n (os_smoothing st))
  | SUse name => set_material st (use_material name (os_material st))
  | SPoint _ | SLine _ | SFace _ => push_element s st
  end.

Lemma base_apply : forall s st, base_of (apply_statement s st) = base_of st.
Proof. intros [] st; reflexivity. Qed.

Lemma now_apply : forall s st, now_of (apply_statement s st) = count (now_of st) s.
Proof. intros [] st; unfold now_of; cbn; rewrite ?Nat.add_1_r; reflexivity. Qed.

(** * One round *)

Section Body.
Context (fuel : nat).

Lemma bad_bind_pure : forall K A B (m : M list_source K A) (f : A -> M list_source K B) R F,
  acc fuel m R -> bad fuel m F -> (forall a, bad fuel (f a) r_none) -> bad fuel (bind m f) F.
Proof.
  intros K A B m f R F Ha Hb Hf. eapply bad_iff; [|eapply bad_bind; [exact Ha|exact Hb|exact Hf]].
  intros ts b rest _. split; [intros [H|(? & ? & _ & [])]; auto|left; auto].
Qed.

Lemma acc_object_g : forall base now g0, acc fuel (parse_object_g fuel g0)
  (fun ts g rest => exists names, reads_statement base now ts (SGroup names) rest /\ g = group_names names g0).
Proof.
  intros base now g0. unfold parse_object_g, group_names.
  destruct (groups g0) as [|x xs] eqn:E;
    (eapply acc_iff; [|eapply acc_bind_map; [apply (acc_parse_groups fuel base now)|intros ? names ? _; apply acc_ret]];
     intros ts g rest _; split;
     [intros (names & mid & H & -> & ->); eauto
     |intros (names & H & ->); exists names, rest; split; [exact H|split; reflexivity]]).
Qed.

Lemma bad_object_g : forall base now g0, bad fuel (parse_object_g fuel g0)
  (fails_with "g" (fails_statement base now)).
Proof.
  intros base now g0. unfold parse_object_g.
  destruct (groups g0) as [|x xs] eqn:E;
    (eapply bad_bind_pure; [apply (acc_parse_groups fuel base now)|apply bad_parse_groups|intros [? ?]; apply bad_ret]).
Qed.

Lemma acc_object_s : forall base now s0, acc fuel (parse_object_s s0)
  (fun ts s rest => exists n, reads_statement base now ts (SSmooth n) rest /\ s = smooth_number n s0).
Proof.
  intros base now s0. unfold parse_object_s, smooth_number.
  destruct (smoothing_groups s0) as [|x xs] eqn:E;
    (eapply acc_iff; [|eapply acc_bind_map; [apply (acc_parse_smoothing fuel base now)|intros ? n ? _; apply acc_ret]];
     intros ts g rest _; split;
     [intros (n & mid & H & -> & ->); eauto
     |intros (n & H & ->); exists n, rest; split; [exact H|split; reflexivity]]).
Qed.

Lemma bad_object_s : forall base now s0, bad fuel (parse_object_s s0)
  (fails_with "s" (fails_statement base now)).
Proof.
  intros base now s0. unfold parse_object_s.
  destruct (smoothing_groups s0) as [|x xs] eqn:E;
    (eapply bad_bind_pure; [apply (acc_parse_smoothing fuel base now)|apply bad_parse_smoothing|intros [? ?]; apply bad_ret]).
Qed.

Lemma acc_object_usemtl : forall base now m0, acc fuel (parse_object_usemtl m0)
  (fun ts m rest => exists name, reads_statement base now ts (SUse name) rest /\ m = use_material name m0).
Proof.
  intros base now m0. unfold parse_object_usemtl, use_material.
  destruct (material_names m0) as [|x xs] eqn:E;
    (eapply acc_iff;
     [|eapply (acc_bind_map fuel) with (R := fun ts n rest => reads_statement base now ts (SUse n) rest);
       [eapply acc_iff; [|eapply acc_bind_map; [apply (acc_parse_material fuel base now)|intros ? n ? _; apply acc_ret]];
        intros ts r rest _; split;
        [intros (n & mid & H & -> & ->); exists n; split; [exact H|];
         match goal with |- ?f = ?g n => idtac end; pattern n; reflexivity
        |intros (n & H & ->); exists n, rest; split; [exact H|split; reflexivity]]
       |intros ? n ? _; apply acc_ret]];
     intros ts g rest _; split;
     [intros (n & mid & H & -> & ->); eauto
     |intros (n & H & ->); exists n, rest; split; [exact H|split; reflexivity]]).
Qed.

Lemma bad_object_usemtl : forall base now m0, bad fuel (parse_object_usemtl m0)
  (fails_with "usemtl" (fails_statement base now)).
Proof.
  intros base now m0. unfold parse_object_usemtl.
  destruct (material_names m0) as [|x xs] eqn:E;
    (eapply bad_bind_pure;
     [eapply acc_bind_map; [apply (acc_parse_material fuel base now)|intros ? n ? _; apply acc_ret]
     |eapply bad_bind_pure; [apply (acc_parse_material fuel base now)|apply bad_parse_material|intros [? ?]; apply bad_ret]
     |intros [? ?]; apply bad_ret]).
Qed.

Lemma acc_object_v : forall st, acc fuel (parse_object_v st)
  (fun ts st' rest => exists v, reads_statement (base_of st) (now_of st) ts (SVertex v) rest /\
                                st' = apply_statement (SVertex v) st).
Proof.
  intros st. unfold parse_object_v.
  eapply acc_iff; [|eapply acc_bind; [apply (acc_parse_vertex fuel (base_of st) (now_of st))|intros v; apply acc_ret]].
  intros ts st' rest _. split.
  - intros (v & mid & H & -> & ->). eauto.
  - intros (v & H & ->). exists v, rest. split; [exact H|split; reflexivity].
Qed.

Lemma bad_object_v : forall st base now, bad fuel (parse_object_v st)
  (fails_with "v" (fails_statement base now)).
Proof.
  intros st base now. unfold parse_object_v.
  eapply bad_bind_pure; [apply (acc_parse_vertex fuel base now)|apply bad_parse_vertex|intros v; apply bad_ret].
Qed.

Lemma acc_object_vt : forall st, acc fuel (parse_object_vt st)
  (fun ts st' rest => exists v, reads_statement (base_of st) (now_of st) ts (STexture v) rest /\
                                st' = apply_statement (STexture v) st).
Proof.
  intros st. unfold parse_object_vt.
  eapply acc_iff; [|eapply acc_bind; [apply (acc_parse_texture_vertex fuel (base_of st) (now_of st))|intros v; apply acc_ret]].
  intros ts st' rest _. split.
  - intros (v & mid & H & -> & ->). eauto.
  - intros (v & H & ->). exists v, rest. split; [exact H|split; reflexivity].
Qed.

Lemma bad_object_vt : forall st base now, bad fuel (parse_object_vt st)
  (fails_with "vt" (fails_statement base now)).
Proof.
  intros st base now. unfold parse_object_vt.
  eapply bad_bind_pure; [apply (acc_parse_texture_vertex fuel base now)|apply bad_parse_texture_vertex|intros v; apply bad_ret].
Qed.

Lemma acc_object_vn : forall st, acc fuel (parse_object_vn st)
  (fun ts st' rest => exists v, reads_statement (base_of st) (now_of st) ts (SNormal v) rest /\
                                st' = apply_statement (SNormal v) st).
Proof.
  intros st. unfold parse_object_vn.
  eapply acc_iff; [|eapply acc_bind; [apply (acc_parse_normal_vertex fuel (base_of st) (now_of st))|intros v; apply acc_ret]].
  intros ts st' rest _. split.
  - intros (v & mid & H & -> & ->). eauto.
  - intros (v & H & ->). exists v, rest. split; [exact H|split; reflexivity].
Qed.

Lemma bad_object_vn : forall st base now, bad fuel (parse_object_vn st)
  (fails_with "vn" (fails_statement base now)).
Proof.
  intros st base now. unfold parse_object_vn.
  eapply bad_bind_pure; [apply (acc_parse_normal_vertex fuel base now)|apply bad_parse_normal_vertex|intros v; apply bad_ret].
Qed.

Lemma apply_element : forall s st, is_element s = true -> apply_statement s st = push_element s st.
Proof. intros [] st H; try discriminate; reflexivity. Qed.

Lemma acc_object_element : forall st, small_counts (now_of st) ->
  acc fuel (parse_object_element false fuel st)
  (fun ts st' rest => exists s, is_element s = true /\
     reads_statement (base_of st) (now_of st) ts s rest /\ st' = apply_statement s st).
Proof.
  intros st Hs. unfold parse_object_element.
  eapply acc_iff; [|eapply (acc_bind_map fuel) with
    (R := fun ts s rest => is_element s = true /\ reads_statement (base_of st) (now_of st) ts s rest);
    [eapply acc_iff; [|apply (acc_parse_elements fuel (base_of st) (now_of st)); exact Hs];
     intros ts r rest _; split;
       [intros (s & He & H & ->); exists s; split; [auto|reflexivity]
       |intros (s & [He H] & ->); exists s; auto]
    |intros ? s ? _; apply acc_ret]].
  intros ts st' rest _. split.
  - intros (s & mid & [He H] & -> & ->). exists s. rewrite apply_element; auto.
  - intros (s & He & H & ->). exists s, rest. rewrite apply_element by exact He. split; [auto|]. split; reflexivity.
Qed.

Lemma bad_object_element : forall st, small_counts (now_of st) ->
  bad fuel (parse_object_element false fuel st)
  (lift (fun ts c rest =>
       match ts with
       | t :: _ => if bytes_eqb t (lit "p") || bytes_eqb t (lit "l") || bytes_eqb t (lit "f")
                   then fails_statement (base_of st) (now_of st) ts c rest
                   else rest = ts /\ fst c = ElementMustBeAPointLineOrFace /\
                        snd c = lit "An element must be a point (`p`), line (`l`), or face (`f`)."
       | [] => rest = ts /\ fst c = ElementMustBeAPointLineOrFace /\
               snd c = lit "An element must be a point (`p`), line (`l`), or face (`f`)."
       end)).
Proof.
  intros st Hs. unfold parse_object_element.
  eapply bad_bind_pure;
    [apply (acc_parse_elements fuel (base_of st) (now_of st)); exact Hs
    |apply (bad_parse_elements fuel (base_of st) (now_of st)); exact Hs|intros [? ?]; apply bad_ret].
Qed.

Lemma acc_skip_one : acc fuel (skip_one_or_more_newlines fuel)
  (fun ts _ rest => exists ts', ts = nl :: ts' /\ drops_newlines ts' rest).
Proof.
  unfold skip_one_or_more_newlines. eapply acc_iff; [|run].
  intros ts u rest _. split.
  - intros H. crush. eauto.
  - intros (ts' & -> & H). exists tt, ts'. split; [reflexivity|].
    exists tt, rest. split; auto. destruct u. split; reflexivity.
Qed.

Lemma bad_skip_one : bad fuel (skip_one_or_more_newlines fuel) (lift (not_tag nl)).
Proof.
  unfold skip_one_or_more_newlines. eapply bad_iff; [|run].
  intros ts b rest _. split.
  - intros H. crush. eauto.
  - intros H. left. exact H.
Qed.

(** ** The round *)

Definition body_round (st : object_state) : reads (step object_state object_state) := fun ts r rest =>
  (exists s, reads_statement (base_of st) (now_of st) ts s rest /\ r = Continue (apply_statement s st)) \/
  (exists ts', ts = nl :: ts' /\ drops_newlines ts' rest /\ r = Continue st) \/
  (at_object_end ts /\ rest = ts /\ r = Break (parse_object_end st)).

Ltac other_heads :=
  match goal with
  | H : reads_statement _ _ _ _ _ |- _ => inversion H; subst
  end.

Lemma acc_at_body : forall st ts, small_counts (now_of st) -> length ts < fuel ->
  acc_at (parse_object_body false fuel st) (body_round st) ts.
Proof.
  intros st ts Hs Hl. unfold parse_object_body. apply acc_at_peek.
  destruct ts as [|t ts].
  { eapply acc_at_iff; [|apply acc_at_ret]. intros r rest. split.
    - intros [-> ->]. right. right. cbn. auto.
    - intros [(s & H & _)|[(? & H & _)|(_ & -> & ->)]]; [inversion H|discriminate H|split; reflexivity]. }
  cbn [hd_error is_tok is_nl].
  destruct (bytes_eqb_spec t (lit "g")) as [->|Hg].
  { eapply acc_at_iff; [|apply acc_at_map; eapply acc_here; [exact Hl|apply (acc_object_g (base_of st) (now_of st))]]. intros r rest. split.
    - intros (g & (names & H & ->) & ->). left. exists (SGroup names). auto.
    - intros [(s & H & ->)|[(? & H & _)|(H & _ & _)]]; [|discriminate H|discriminate H].
      inversion H; subst. eexists. split; [eexists; split; [exact H|reflexivity]|reflexivity]. }
  destruct (bytes_eqb_spec t (lit "s")) as [->|Hsm].
  { eapply acc_at_iff; [|apply acc_at_map; eapply acc_here; [exact Hl|apply (acc_object_s (base_of st) (now_of st))]]. intros r rest. split.
    - intros (g & (n & H & ->) & ->). left. exists (SSmooth n). auto.
    - intros [(s & H & ->)|[(? & H & _)|(H & _ & _)]]; [|discriminate H|discriminate H].
      inversion H; subst. eexists. split; [eexists; split; [exact H|reflexivity]|reflexivity]. }
  destruct (bytes_eqb_spec t (lit "usemtl")) as [->|Hu].
  { eapply acc_at_iff; [|apply acc_at_map; eapply acc_here; [exact Hl|apply (acc_object_usemtl (base_of st) (now_of st))]]. intros r rest. split.
    - intros (g & (n & H & ->) & ->). left. exists (SUse n). auto.
    - intros [(s & H & ->)|[(? & H & _)|(H & _ & _)]]; [|discriminate H|discriminate H].
      inversion H; subst. eexists. split; [eexists; split; [exact H|reflexivity]|reflexivity]. }
  destruct (bytes_eqb_spec t (lit "v")) as [->|Hv].
  { eapply acc_at_iff; [|apply acc_at_map; eapply acc_here; [exact Hl|apply acc_object_v]]. intros r rest. split.
    - intros (g & (v & H & ->) & ->). left. exists (SVertex v). auto.
    - intros [(s & H & ->)|[(? & H & _)|(H & _ & _)]]; [|discriminate H|discriminate H].
      inversion H; subst. eexists. split; [eexists; split; [exact H|reflexivity]|reflexivity]. }
  destruct (bytes_eqb_spec t (lit "vt")) as [->|Hvt].
  { eapply acc_at_iff; [|apply acc_at_map; eapply acc_here; [exact Hl|apply acc_object_vt]]. intros r rest. split.
    - intros (g & (v & H & ->) & ->). left. exists (STexture v). auto.
    - intros [(s & H & ->)|[(? & H & _)|(H & _ & _)]]; [|discriminate H|discriminate H].
      inversion H; subst. eexists. split; [eexists; split; [exact H|reflexivity]|reflexivity]. }
  destruct (bytes_eqb_spec t (lit "vn")) as [->|Hvn].
  { eapply acc_at_iff; [|apply acc_at_map; eapply acc_here; [exact Hl|apply acc_object_vn]]. intros r rest. split.
    - intros (g & (v & H & ->) & ->). left. exists (SNormal v). auto.
    - intros [(s & H & ->)|[(? & H & _)|(H & _ & _)]]; [|discriminate H|discriminate H].
      inversion H; subst. eexists. split; [eexists; split; [exact H|reflexivity]|reflexivity]. }
  destruct (bytes_eqb t (lit "p") || bytes_eqb t (lit "l") || bytes_eqb t (lit "f")) eqn:Ee.
  { assert (Ht : t <> nl /\ t <> lit "o").
    { split; intros ->; vm_compute in Ee; discriminate Ee. }
    eapply acc_at_iff; [|apply acc_at_map; eapply acc_here; [exact Hl|now apply acc_object_element]]. intros r rest. split.
    - intros (g & (s & He & H & ->) & ->). left. exists s. auto.
    - intros [(s & H & ->)|[(? & H & _)|(H & _ & _)]]; [|inversion H; tauto|cbn in H; tauto].
      eexists. split; [|reflexivity]. exists s. split; [|split; [exact H|reflexivity]].
      inversion H; subst; auto; congruence. }
  destruct (bytes_eqb_spec t nl) as [->|Hn].
  { eapply acc_at_iff; [|apply (acc_at_map _ _ _ _ (fun _ => Continue st)); eapply acc_here; [exact Hl|apply acc_skip_one]]. intros r rest. split.
    - intros (_ & (ts' & H & Hd) & ->). right. left. eauto.
    - intros [(s & H & ->)|[(? & H & Hd & ->)|(H & _ & _)]]; [inversion H| |discriminate H].
      exists tt. eauto. }
  destruct (bytes_eqb_spec t (lit "o")) as [->|Ho].
  { eapply acc_at_iff; [|apply acc_at_ret]. intros r rest. split.
    - intros [-> ->]. right. right. cbn. auto.
    - intros [(s & H & _)|[(? & H & _)|(_ & -> & ->)]]; [inversion H|discriminate H|split; reflexivity]. }
  eapply acc_at_iff; [|eapply acc_here; [exact Hl|apply acc_error]]. intros r rest. split; [intros []|].
  intros [(s & H & _)|[(? & H & _)|(H & _ & _)]]; [|inversion H; tauto|cbn in H; tauto].
  inversion H; subst; try congruence; vm_compute in Ee; discriminate Ee.
Qed.

Lemma bad_at_body : forall st ts, small_counts (now_of st) -> length ts < fuel ->
  bad_at (parse_object_body false fuel st) (lift (fails_statement (base_of st) (now_of st))) ts.
Proof.
  intros st ts Hs Hl. unfold parse_object_body. apply bad_at_peek.
  destruct ts as [|t ts].
  { eapply bad_at_iff; [|apply bad_at_ret]. intros r rest. split; [intros []|].
    intros (c & _ & H). inversion H. }
  assert (Hw : forall tag b rest, t = lit tag ->
    fails_with tag (fails_statement (base_of st) (now_of st)) (t :: ts) b rest <->
    lift (fails_statement (base_of st) (now_of st)) (t :: ts) b rest).
  { intros tag b rest ->. split.
    - intros (c & -> & [H|[_ H]]); [exfalso; eapply not_tag_head; [|eauto]; reflexivity|]. exists c. auto.
    - intros (c & -> & H). exists c. split; auto. }
  cbn [hd_error is_tok is_nl].
  destruct (bytes_eqb_spec t (lit "g")) as [Eg|Hg].
  { eapply bad_at_iff; [|apply bad_at_map; eapply bad_here; [exact Hl|apply (bad_object_g (base_of st) (now_of st))]]. auto. }
  destruct (bytes_eqb_spec t (lit "s")) as [Esm|Hsm].
  { eapply bad_at_iff; [|apply bad_at_map; eapply bad_here; [exact Hl|apply (bad_object_s (base_of st) (now_of st))]]. auto. }
  destruct (bytes_eqb_spec t (lit "usemtl")) as [Eu|Hu].
  { eapply bad_at_iff; [|apply bad_at_map; eapply bad_here; [exact Hl|apply (bad_object_usemtl (base_of st) (now_of st))]]. auto. }
  destruct (bytes_eqb_spec t (lit "v")) as [Ev|Hv].
  { eapply bad_at_iff; [|apply bad_at_map; eapply bad_here; [exact Hl|apply (bad_object_v st (base_of st) (now_of st))]]. auto. }
  destruct (bytes_eqb_spec t (lit "vt")) as [Evt|Hvt].
  { eapply bad_at_iff; [|apply bad_at_map; eapply bad_here; [exact Hl|apply (bad_object_vt st (base_of st) (now_of st))]]. auto. }
  destruct (bytes_eqb_spec t (lit "vn")) as [Evn|Hvn].
  { eapply bad_at_iff; [|apply bad_at_map; eapply bad_here; [exact Hl|apply (bad_object_vn st (base_of st) (now_of st))]]. auto. }
  destruct (bytes_eqb t (lit "p") || bytes_eqb t (lit "l") || bytes_eqb t (lit "f")) eqn:Ee.
  { eapply bad_at_iff; [|apply bad_at_map; eapply bad_here; [exact Hl|now apply bad_object_element]]. intros b rest.
    unfold lift. rewrite Ee. reflexivity. }
  destruct (bytes_eqb_spec t nl) as [En|Hn].
  { eapply bad_at_iff; [|apply bad_at_map; eapply bad_here; [exact Hl|apply bad_skip_one]]. subst t. intros b rest. split.
    - intros (c & -> & H). exfalso. eapply not_tag_head; [|eauto]; reflexivity.
    - intros (c & -> & H). inversion H; subst. tauto. }
  destruct (bytes_eqb_spec t (lit "o")) as [Eo|Ho].
  { eapply bad_at_iff; [|apply bad_at_ret]. subst t. intros b rest. split; [intros []|].
    intros (c & _ & H). inversion H; subst. tauto. }
  apply Bool.orb_false_iff in Ee. destruct Ee as [Ee Hf]. apply Bool.orb_false_iff in Ee. destruct Ee as [Hp Hli].
  apply bytes_eqb_neq in Hp, Hli, Hf.
  eapply bad_at_iff; [|eapply bad_here; [exact Hl|apply bad_error]]. intros b rest. split.
  - intros [-> ->]. eexists (_, _). split; [reflexivity|]. apply fails_unknown; auto.
    unfold keywords. cbn [In]. intuition congruence.
  - intros (c & -> & H). inversion H; subst; try congruence. auto.
Qed.

End Body.
