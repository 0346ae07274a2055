(** [Parser::parse_object], [parse_objects] and [parse_objset] over a token list:
    what they accept and where they fail. *)
From Verif Require Import ObjModel SourceProofs ConsumeProofs RunProofs ObjSpec ObjErrorSpec
  ObjAccept ObjElements ObjBody ObjState.
Local Open Scope list_scope.

(** * Numbers stay in range *)

Definition room (now : counts) (ts : list bytes) : Prop :=
  small (n_v now + length ts) /\ small (n_t now + length ts) /\ small (n_n now + length ts).

Lemma room_small : forall now ts, room now ts -> small_counts now.
Proof. intros now ts (H1 & H2 & H3). unfold small_counts, small in *. lia. Qed.

Lemma room_less : forall now ts rest, room now ts -> length rest <= length ts -> room now rest.
Proof. intros now ts rest (H1 & H2 & H3) Hl. unfold room, small in *. lia. Qed.

Lemma room_count : forall now s ts rest, room now ts -> length rest < length ts -> room (count now s) rest.
Proof. intros now s ts rest (H1 & H2 & H3) Hl. unfold room, small in *. destruct s; cbn [count n_v n_t n_n]; lia. Qed.

(** * Statements consume something *)

Lemma line_shorter : forall ts names rest, reads_line ts names rest -> length rest <= length ts.
Proof. intros ts names rest H. inversion H; subst; cbn; rewrite ?app_length; cbn; lia. Qed.

Lemma refs_shorter : forall base now ts rs rest, reads_refs base now ts rs rest -> length rest <= length ts.
Proof. intros base now ts rs rest H. induction H; cbn; lia. Qed.

Lemma optional_shorter : forall d ts x rest, reads_optional d ts x rest -> length rest <= length ts.
Proof. intros d ts x rest H. inversion H; subst; cbn; lia. Qed.

Lemma statement_shorter : forall base now ts s rest,
  reads_statement base now ts s rest -> length rest < length ts.
Proof.
  intros base now ts s rest H. inversion H; subst; cbn;
    repeat match goal with
    | K : reads_line _ _ _ |- _ => apply line_shorter in K
    | K : reads_refs _ _ _ _ _ |- _ => apply refs_shorter in K
    | K : reads_optional _ _ _ _ |- _ => apply optional_shorter in K
    end; lia.
Qed.

Lemma drops_shorter : forall ts rest, drops_newlines ts rest -> length rest <= length ts.
Proof. intros ts rest H. induction H; cbn; lia. Qed.

Lemma drops_head : forall ts rest, drops_newlines ts rest -> hd_error rest <> Some nl.
Proof. intros ts rest H. induction H; auto. Qed.

Lemma drops_none : forall ts rest, hd_error ts <> Some nl -> drops_newlines ts rest -> rest = ts.
Proof. intros ts rest Hn H. inversion H; subst; [|auto]. exfalso. apply Hn. reflexivity. Qed.

Lemma statement_not_nl : forall base now ts s rest, ~ reads_statement base now (nl :: ts) s rest.
Proof. intros base now ts s rest H. inversion H. Qed.

Lemma fails_not_nl : forall base now ts c rest, ~ fails_statement base now (nl :: ts) c rest.
Proof. intros base now ts c rest H. inversion H; subst. auto. Qed.

Lemma body_shorter : forall base now ts ss rest, reads_body base now ts ss rest -> length rest <= length ts.
Proof.
  intros base now ts ss rest H. induction H; cbn; auto.
  apply statement_shorter in H. lia.
Qed.

Lemma body_rest : forall base now ts ss rest, reads_body base now ts ss rest -> at_object_end rest.
Proof. intros base now ts ss rest H. induction H; auto. Qed.

Lemma body_drop : forall base now ts ss rest ts', drops_newlines ts ts' ->
  reads_body base now ts ss rest <-> reads_body base now ts' ss rest.
Proof.
  intros base now ts ss rest ts' H. induction H as [ts ts' H IH|ts H]; [|tauto].
  rewrite <- IH. split.
  - intros HB. inversion HB; subst; auto.
    + match goal with K : at_object_end (nl :: _) |- _ => discriminate K end.
    + match goal with K : reads_statement _ _ (nl :: _) _ _ |- _ => apply statement_not_nl in K; tauto end.
  - apply body_blank.
Qed.

Lemma fails_body_drop : forall base now ts c rest ts', drops_newlines ts ts' ->
  fails_body base now ts c rest <-> fails_body base now ts' c rest.
Proof.
  intros base now ts c rest ts' H. induction H as [ts ts' H IH|ts H]; [|tauto].
  rewrite <- IH. split.
  - intros HB. inversion HB; subst; auto.
    + match goal with K : fails_statement _ _ (nl :: _) _ _ |- _ => apply fails_not_nl in K; tauto end.
    + match goal with K : reads_statement _ _ (nl :: _) _ _ |- _ => apply statement_not_nl in K; tauto end.
  - apply fails_after_blank.
Qed.

Ltac dropping :=
  match goal with
  | H : drops_newlines _ _ |- reads_body _ _ _ _ _ => now apply (body_drop _ _ _ _ _ _ H)
  | H : drops_newlines _ _ |- fails_body _ _ _ _ _ => now apply (fails_body_drop _ _ _ _ _ _ H)
  end.

Lemma drops_total : forall ts, exists rest, drops_newlines ts rest.
Proof.
  induction ts as [|t ts [rest IH]].
  - exists []. apply drops_done. discriminate.
  - destruct (bytes_eqb_spec t nl) as [->|Hn].
    + exists rest. now apply drops_more.
    + exists (t :: ts). apply drops_done. cbn. congruence.
Qed.

Lemma end_not_nl : forall ts, at_object_end ts -> hd_error ts <> Some nl.
Proof. intros [|t ts] H; cbn in *; [discriminate|]. subst. discriminate. Qed.

(** * The loop of an object *)

Section File.
Context (fuel : nat).

Lemma rounds_body : forall st ts b rest,
  loops body_round st ts b rest <->
  exists ss, reads_body (base_of st) (now_of st) ts ss rest /\ b = parse_object_end (run_statements ss st).
Proof.
  intros st ts b rest. split.
  - intros H. induction H as [st ts b rest H|st ts st' mid b rest H HL IH].
    + destruct H as [(s & _ & H)|[(ts' & _ & _ & H)|(He & -> & H)]]; inversion H; subst.
      exists []. split; [now apply body_end|reflexivity].
    + destruct H as [(s & H & E)|[(ts' & -> & Hd & E)|(He & -> & E)]]; inversion E; subst.
      * destruct IH as (ss & Hb & ->). exists (s :: ss). split; [|reflexivity].
        rewrite base_apply, now_apply in Hb. eapply body_statement; eauto.
      * destruct IH as (ss & Hb & ->). exists ss. split; [|reflexivity].
        apply body_blank. dropping.
  - intros (ss & H & ->). remember (length ts) as n eqn:En. revert ts En st ss H.
    induction n as [n IH] using lt_wf_ind. intros ts En st ss H.
    inversion H as [now ts0 He|now ts0 ss0 rest0 Hb|now ts0 s mid ss0 rest0 Hs Hb]; subst.
    + apply loops_break. right. right. auto.
    + destruct (drops_total ts0) as [ts1 Hd]. pose proof (drops_shorter _ _ Hd) as Hl.
      apply (loops_continue _ _ _ st ts1).
      * right. left. eauto.
      * apply (IH (length ts1)); [cbn; lia|reflexivity|]. now apply (body_drop _ _ _ _ _ _ Hd).
    + pose proof (statement_shorter _ _ _ _ _ Hs).
      apply (loops_continue _ _ _ (apply_statement s st) mid).
      * left. eauto.
      * cbn [run_statements fold_left]. eapply (IH (length mid)); [auto|reflexivity|].
        rewrite base_apply, now_apply. exact Hb.
Qed.

Lemma bad_rounds_body : forall st ts b rest,
  loops_bad body_round (fun st => lift (fails_statement (base_of st) (now_of st))) st ts b rest <->
  lift (fails_body (base_of st) (now_of st)) ts b rest.
Proof.
  intros st ts b rest. split.
  - intros H. induction H as [st ts b rest H|st ts st' mid b rest H HL IH].
    + destruct H as (c & -> & H). exists c. split; auto. now apply fails_here.
    + destruct H as [(s & H & E)|[(ts' & -> & Hd & E)|(He & -> & E)]]; inversion E; subst.
      * destruct IH as (c & -> & Hb). exists c. split; auto.
        rewrite base_apply, now_apply in Hb. eapply fails_after; eauto.
      * destruct IH as (c & -> & Hb). exists c. split; auto.
        apply fails_after_blank. dropping.
  - intros (c & -> & H). remember (length ts) as n eqn:En. revert ts En st H.
    induction n as [n IH] using lt_wf_ind. intros ts En st H.
    inversion H as [now ts0 c0 rest0 Hf|now ts0 c0 rest0 Hb|now ts0 s mid c0 rest0 Hs Hb]; subst.
    + apply bad_now. exists c. auto.
    + destruct (drops_total ts0) as [ts1 Hd]. pose proof (drops_shorter _ _ Hd) as Hl.
      apply (bad_later _ _ _ _ st ts1).
      * right. left. eauto.
      * apply (IH (length ts1)); [cbn; lia|reflexivity|]. now apply (fails_body_drop _ _ _ _ _ _ Hd).
    + pose proof (statement_shorter _ _ _ _ _ Hs).
      apply (bad_later _ _ _ _ (apply_statement s st) mid).
      * left. eauto.
      * eapply (IH (length mid)); [auto|reflexivity|].
        rewrite base_apply, now_apply. exact Hb.
Qed.

Definition body_ok (st : object_state) (ts : list bytes) : Prop := room (now_of st) ts.

Lemma body_preserved : forall st ts st' mid, body_ok st ts -> length ts < fuel ->
  body_round st ts (Continue st') mid -> body_ok st' mid /\ length mid < length ts.
Proof.
  intros st ts st' mid Hr Hl [(s & H & E)|[(ts' & -> & Hd & E)|(He & -> & E)]]; inversion E; subst.
  - apply statement_shorter in H. split; auto. unfold body_ok. rewrite now_apply. eapply room_count; eauto.
  - apply drops_shorter in Hd. cbn. split; [|lia]. eapply room_less; eauto. cbn. lia.
Qed.

Lemma acc_at_statements : forall st ts, room (now_of st) ts -> length ts < fuel ->
  acc_at (loop fuel (parse_object_body false fuel) st)
    (fun ts b rest => exists ss, reads_body (base_of st) (now_of st) ts ss rest /\
                                 b = parse_object_end (run_statements ss st)) ts.
Proof.
  intros st ts Hr Hl. eapply acc_at_iff; [|eapply (acc_at_loop fuel body_round body_ok)].
  - intros b rest. apply rounds_body.
  - exact body_preserved.
  - intros st0 ts0 H0 Hl0. apply acc_at_body; auto. eapply room_small; eauto.
  - exact Hl.
  - exact Hr.
Qed.

Lemma bad_at_statements : forall st ts, room (now_of st) ts -> length ts < fuel ->
  bad_at (loop fuel (parse_object_body false fuel) st)
    (lift (fails_body (base_of st) (now_of st))) ts.
Proof.
  intros st ts Hr Hl. eapply bad_at_iff; [|eapply (bad_at_loop fuel body_round body_ok)].
  - intros b rest. apply bad_rounds_body.
  - exact body_preserved.
  - intros st0 ts0 H0 Hl0. apply acc_at_body; auto. eapply room_small; eauto.
  - intros st0 ts0 H0 Hl0. apply bad_at_body; auto. eapply room_small; eauto.
  - exact Hl.
  - exact Hr.
Qed.

(** * One object *)

Lemma object_name_run : forall l name ts,
  parse_object_name fuel (list_parser l (lit "o" :: name :: ts)) =
  bind (skip_one_or_more_newlines fuel) (fun _ => ret name)
    (list_parser (if bytes_eqb name nl then l + 1 else l) ts).
Proof. reflexivity. Qed.

Lemma object_name_short : forall l,
  parse_object_name fuel (list_parser l [lit "o"]) = (Err (mkParseError l EndOfFile msg_end), list_parser l []).
Proof. reflexivity. Qed.

Lemma object_name_none : forall l ts, hd_error ts <> Some (lit "o") ->
  parse_object_name fuel (list_parser l ts) = (Ok [], list_parser l ts).
Proof.
  intros l ts H. unfold parse_object_name. destruct ts as [|t ts]; [reflexivity|].
  unfold bind at 1. cbn -[lit is_tok bytes_eqb]. unfold is_tok.
  destruct (bytes_eqb_spec t (lit "o")) as [->|]; [|reflexivity]. exfalso. now apply H.
Qed.

Lemma acc_object_name : acc fuel (parse_object_name fuel)
  (fun ts name rest =>
     (exists ts', ts = lit "o" :: name :: nl :: ts' /\ drops_newlines ts' rest) \/
     (hd_error ts <> Some (lit "o") /\ name = [] /\ rest = ts)).
Proof.
  intros ts Hl. assert (Hd : hd_error ts = Some (lit "o") \/ hd_error ts <> Some (lit "o")).
  { destruct ts as [|t ts]; [right; discriminate|]. cbn.
    destruct (bytes_eqb_spec t (lit "o")); [left|right]; congruence. }
  destruct Hd as [Hd|Hd].
  - destruct ts as [|t ts]; [discriminate|]. inversion Hd; subst t. destruct ts as [|name ts].
    + split.
      * intros l a rest. unfold ok_to. rewrite object_name_short. split; [intros [l' E]; discriminate|].
        intros [(ts' & E & _)|(H & _)]; [discriminate|]. exfalso. now apply H.
      * intros a rest [(ts' & E & _)|(H & _)]; [discriminate|]. exfalso. now apply H.
    + assert (Hl' : length ts < fuel) by (cbn in Hl; lia).
      destruct (acc_at_map _ _ _ _ (fun _ => name) _ ts (acc_here fuel _ _ _ _ ts Hl' (acc_skip_one fuel))) as [H1 H2].
      split.
      * intros l a rest. unfold ok_to. setoid_rewrite object_name_run.
        specialize (H1 (if bytes_eqb name nl then l + 1 else l) a rest). unfold ok_to in H1. rewrite H1.
        split.
        -- intros (_ & (ts' & -> & Hdr) & ->). left. eauto.
        -- intros [(ts' & E & Hdr)|(H & _)]; [|exfalso; now apply H]. inversion E; subst. exists tt. eauto.
      * intros a rest [(ts' & E & Hdr)|(H & _)]; [|exfalso; now apply H]. inversion E; subst.
        apply drops_shorter in Hdr. cbn. lia.
  - split.
    + intros l a rest. unfold ok_to. rewrite object_name_none by auto. split.
      * intros [l' E]. inversion E; subst. auto.
      * intros [(ts' & -> & _)|(_ & -> & ->)]; [exfalso; now apply Hd|]. eauto.
    + intros a rest [(ts' & -> & _)|(_ & -> & ->)]; [exfalso; now apply Hd|auto].
Qed.

Lemma bad_object_name : bad fuel (parse_object_name fuel) (lift fails_header).
Proof.
  intros ts Hl. change (bad_at (parse_object_name fuel) (lift fails_header) ts).
  assert (Hd : hd_error ts = Some (lit "o") \/ hd_error ts <> Some (lit "o")).
  { destruct ts as [|t ts]; [right; discriminate|]. cbn.
    destruct (bytes_eqb_spec t (lit "o")); [left|right]; congruence. }
  destruct Hd as [Hd|Hd].
  - destruct ts as [|t ts]; [discriminate|]. inversion Hd; subst t. destruct ts as [|name ts].
    + intros l b rest. unfold bad_to. rewrite object_name_short. split.
      * intros [l' E]. exists (EndOfFile, msg_end). destruct b; inversion E; subst. split; auto. constructor.
      * intros (c & -> & H). inversion H; subst. eexists. reflexivity.
    + assert (Hl' : length ts < fuel) by (cbn in Hl; lia).
      pose proof (bad_at_map _ _ _ _ (fun _ => name) _ ts (bad_here fuel _ _ _ _ ts Hl' (bad_skip_one fuel))) as H1.
      intros l b rest. unfold bad_to. setoid_rewrite object_name_run.
      specialize (H1 (if bytes_eqb name nl then l + 1 else l) b rest). unfold bad_to in H1. rewrite H1.
      split.
      * intros (c & -> & H). exists c. split; auto. destruct ts as [|t ts]; cbn in H.
        -- destruct H as [-> ->]. constructor.
        -- destruct H as (Hn & -> & ->). now constructor.
      * intros (c & -> & H). exists c. split; auto. inversion H; subst; cbn; auto.
  - intros l b rest. unfold bad_to. rewrite object_name_none by auto. split.
    + intros [l' E]. destruct b; discriminate.
    + intros (c & -> & H). inversion H; subst; exfalso; now apply Hd.
Qed.

(** The tokens of one object: with a name, or, at the start of the file, without. *)
Definition reads_object (now : counts) (ts : list bytes) (o : bytes * list statement) (rest : list bytes) : Prop :=
  (exists ts', ts = lit "o" :: fst o :: nl :: ts' /\ reads_body now now ts' (snd o) rest) \/
  (hd_error ts <> Some (lit "o") /\ fst o = [] /\ reads_body now now ts (snd o) rest).

Definition fails_any_object (now : counts) : list bytes -> complaint -> list bytes -> Prop := fun ts c rest =>
  fails_object now ts c rest \/ (hd_error ts <> Some (lit "o") /\ fails_body now now ts c rest).

Definition ranges_at (c : counts) : index_ranges :=
  mkIndexRanges (n_v c) (n_v c) (n_t c) (n_t c) (n_n c) (n_n c).

Lemma count_lengths : forall ss c, count_all c ss =
  mkCounts (n_v c + length (all_vertices ss)) (n_t c + length (all_texture_vertices ss)) (n_n c + length (all_normals ss)).
Proof.
  induction ss as [|s ss IH]; intros [a b d]; [cbn; now rewrite !Nat.add_0_r|].
  change (count_all (mkCounts a b d) (s :: ss)) with (count_all (count (mkCounts a b d) s) ss). rewrite IH.
  unfold all_vertices, all_texture_vertices, all_normals.
  destruct s; cbn [flat_map app count n_v n_t n_n length]; f_equal; cbn; lia.
Qed.

Lemma ranges_base : forall r, r = mkIndexRanges (n_v (base_of (object_state_new r))) (n_v (now_of (object_state_new r)))
  (n_t (base_of (object_state_new r))) (n_t (now_of (object_state_new r)))
  (n_n (base_of (object_state_new r))) (n_n (now_of (object_state_new r))).
Proof. intros []. reflexivity. Qed.

Lemma ranges_of_state : forall st, os_ranges st =
  mkIndexRanges (n_v (base_of st)) (n_v (now_of st)) (n_t (base_of st)) (n_t (now_of st)) (n_n (base_of st)) (n_n (now_of st)).
Proof. intros [? ? ? ? []]. reflexivity. Qed.

(** The rest of [parse_object] after the statements [ss]. *)
Definition finish (dbg : bool) (object_name : bytes) (st : object_state) : M list_source error_kind (object * index_ranges) :=
  shape_entries <- parse_shape_entries dbg (elements (os_data st))
                     (group_entry_table (os_groups st))
                     (smoothing_group_entry_table (os_smoothing st)) ;;
  geometries <- parse_geometries (material_name_entry_table (os_material st))
                  (material_names (os_material st)) ;;
  let d := os_data st in
  let r := os_ranges st in
  ret (mkObject object_name (vertices d) (texture_vertices d) (normal_vertices d)
         (groups (os_groups st)) (smoothing_groups (os_smoothing st)) (elements d)
         shape_entries geometries,
       mkIndexRanges (min_vertex_index r + length (vertices d)) (max_vertex_index r)
                     (min_texture_index r + length (texture_vertices d)) (max_texture_index r)
                     (min_normal_index r + length (normal_vertices d)) (max_normal_index r)).

Lemma drawable_name : forall a b ss, drawable (a, ss) <-> drawable (b, ss).
Proof. intros. reflexivity. Qed.

Lemma finish_ok : forall dbg name c ss, drawable (name, ss) ->
  returns (finish dbg name (parse_object_end (run_statements ss (object_state_new (ranges_at c)))))
    (object_of c name ss, ranges_at (count_all c ss)).
Proof.
  intros dbg name c ss Hd. destruct c as [a b d]. set (c := mkCounts a b d).
  pose proof (state_inv_run c ss (ranges_at c) eq_refl) as HI.
  pose proof (base_run ss (object_state_new (ranges_at c))) as Hb.
  pose proof (now_run ss (object_state_new (ranges_at c))) as Hn.
  change (base_of (object_state_new (ranges_at c))) with c in Hb.
  change (now_of (object_state_new (ranges_at c))) with c in Hn.
  set (st := run_statements ss (object_state_new (ranges_at c))) in *.
  unfold finish. eapply returns_bind; [apply (returns_shapes c dbg ss st HI)|].
  eapply returns_bind; [apply (returns_geometries c ss _ (st_material _ _ _ HI)); exact Hd|].
  cbn [parse_object_end os_data os_ranges os_groups os_smoothing groups smoothing_groups].
  rewrite ranges_of_state, Hb, Hn. cbn [min_vertex_index max_vertex_index min_texture_index max_texture_index min_normal_index max_normal_index].
  rewrite (st_vertices _ _ _ HI), (st_textures _ _ _ HI), (st_normals _ _ _ HI), (st_elements _ _ _ HI),
    (gi_groups _ _ _ (st_groups _ _ _ HI)), (si_groups _ _ _ (st_smoothing _ _ _ HI)).
  rewrite count_lengths. apply returns_ret.
Qed.

Lemma finish_panics : forall dbg name c ss, ~ drawable (name, ss) ->
  forall p, finish dbg name (parse_object_end (run_statements ss (object_state_new (ranges_at c)))) p =
    (Panic PanicIndex, p).
Proof.
  intros dbg name c ss Hd p. destruct c as [a b d]. set (c := mkCounts a b d).
  pose proof (state_inv_run c ss (ranges_at c) eq_refl) as HI.
  set (st := run_statements ss (object_state_new (ranges_at c))) in *.
  unfold finish, bind at 1.
  change (parse_shape_entries dbg (elements (os_data (parse_object_end st)))
            (group_entry_table (os_groups (parse_object_end st)))
            (smoothing_group_entry_table (os_smoothing (parse_object_end st))))
    with (parse_shape_entries (S := list_source) dbg (elements (os_data st)) (final_groups (os_groups st)) (final_smoothing (os_smoothing st))).
  rewrite (returns_shapes c dbg ss st HI p). unfold bind.
  change (parse_geometries (material_name_entry_table (os_material (parse_object_end st)))
            (material_names (os_material (parse_object_end st))))
    with (parse_geometries (S := list_source) (final_materials (os_material st)) (material_names (os_material st))).
  rewrite (panics_geometries c ss (os_material st) (st_material _ _ _ HI) Hd). reflexivity.
Qed.

Lemma drawable_dec : forall o, drawable o \/ ~ drawable o.
Proof.
  intros [name ss]. induction ss as [|s ss IH].
  - right. intros (s & [] & _).
  - assert (Hs : (is_element s = true \/ exists m, s = SUse m) \/ ~ (is_element s = true \/ exists m, s = SUse m)).
    { destruct s; cbn; try (left; auto; fail); try (right; intros [H|[? H]]; discriminate). left. eauto. }
    destruct Hs as [Hs|Hs]; [left; exists s; split; [now left|auto]|].
    destruct IH as [(x & Hx & H)|IH]; [left; exists x; split; [now right|auto]|].
    right. intros (x & [->|Hx] & H); [auto|]. apply IH. exists x. auto.
Qed.

Lemma header_body : forall c ts name ss rest,
  (exists mid, ((exists ts', ts = lit "o" :: name :: nl :: ts' /\ drops_newlines ts' mid) \/
               (hd_error ts <> Some (lit "o") /\ name = [] /\ mid = ts)) /\ reads_body c c mid ss rest) <->
  reads_object c ts (name, ss) rest.
Proof.
  intros c ts name ss rest. unfold reads_object. cbn [fst snd]. split.
  - intros (mid & [(ts' & -> & Hd)|(Hh & -> & ->)] & Hb).
    + left. exists ts'. split; auto. dropping.
    + right. auto.
  - intros [(ts' & -> & Hb)|(Hh & -> & Hb)].
    + destruct (drops_total ts') as [mid Hd]. exists mid. split; [eauto|]. dropping.
    + exists ts. auto.
Qed.

Lemma start_base : forall c, base_of (object_state_new (ranges_at c)) = c.
Proof. now intros []. Qed.

Lemma start_now : forall c, now_of (object_state_new (ranges_at c)) = c.
Proof. now intros []. Qed.

Lemma object_finish : forall dbg r, parse_object dbg fuel r =
  (object_name <- parse_object_name fuel ;;
   st <- loop fuel (parse_object_body dbg fuel) (object_state_new r) ;;
   finish dbg object_name st).
Proof. reflexivity. Qed.

Lemma acc_at_finish : forall dbg name c ss ts,
  acc_at (finish dbg name (parse_object_end (run_statements ss (object_state_new (ranges_at c)))))
    (fun ts r rest => drawable (name, ss) /\ r = (object_of c name ss, ranges_at (count_all c ss)) /\ rest = ts) ts.
Proof.
  intros dbg name c ss ts. destruct (drawable_dec (name, ss)) as [Hd|Hd]; split.
  - intros l r rest. unfold ok_to. rewrite (finish_ok dbg name c ss Hd). split.
    + intros [l' E]. inversion E; subst. auto.
    + intros (_ & -> & ->). eauto.
  - intros r rest (_ & _ & ->). auto.
  - intros l r rest. unfold ok_to. rewrite (finish_panics dbg name c ss Hd). split; [intros [l' E]; discriminate|tauto].
  - intros r rest (_ & _ & ->). auto.
Qed.

Lemma bad_at_finish : forall dbg name c ss ts,
  bad_at (finish dbg name (parse_object_end (run_statements ss (object_state_new (ranges_at c)))))
    (fun ts b rest => ~ drawable (name, ss) /\ b = Panics PanicIndex /\ rest = ts) ts.
Proof.
  intros dbg name c ss ts l b rest. unfold bad_to. destruct (drawable_dec (name, ss)) as [Hd|Hd].
  - rewrite (finish_ok dbg name c ss Hd). split; [intros [l' E]; destruct b; discriminate|tauto].
  - rewrite (finish_panics dbg name c ss Hd). split.
    + intros [l' E]. destruct b; inversion E; subst. auto.
    + intros (_ & -> & ->). exists l. reflexivity.
Qed.

Lemma acc_at_object : forall c ts, room c ts -> length ts < fuel ->
  acc_at (parse_object false fuel (ranges_at c))
    (fun ts r rest => exists o, reads_object c ts o rest /\ drawable o /\
       r = (object_of c (fst o) (snd o), ranges_at (count_all c (snd o)))) ts.
Proof.
  intros c ts Hr Hl.
  pose proof (start_base c) as Eb. pose proof (start_now c) as En.
  eapply acc_at_iff; [|rewrite object_finish; eapply acc_at_bind; [eapply acc_here; [exact Hl|apply acc_object_name]|]].
  2: { intros name mid Hm. assert (Hlen : length mid <= length ts).
       { eapply (acc_object_name ts Hl). exact Hm. }
       eapply acc_at_bind_map; [apply acc_at_statements; [rewrite En; eapply room_less; eauto|lia]|].
       intros ss rest Hb. apply acc_at_finish. }
  rewrite Eb, En. intros r rest. split.
  - intros (name & mid & Hm & ss & mid' & Hb & Hd & -> & ->). exists (name, ss). split; [|auto].
    apply header_body. eauto.
  - intros ([name ss] & Ho & Hd & ->). apply header_body in Ho. destruct Ho as (mid & Hm & Hb).
    exists name, mid. split; auto. exists ss, rest. auto.
Qed.

Lemma bad_at_object : forall c ts, room c ts -> length ts < fuel ->
  bad_at (parse_object false fuel (ranges_at c))
    (fun ts b rest => lift (fails_any_object c) ts b rest \/
       (b = Panics PanicIndex /\ exists o, reads_object c ts o rest /\ ~ drawable o)) ts.
Proof.
  intros c ts Hr Hl.
  pose proof (start_base c) as Eb. pose proof (start_now c) as En.
  eapply bad_at_iff; [|rewrite object_finish; eapply bad_at_bind;
    [eapply acc_here; [exact Hl|apply acc_object_name]|eapply bad_here; [exact Hl|apply bad_object_name]|]].
  2: { intros name mid Hm. assert (Hlen : length mid <= length ts).
       { eapply (acc_object_name ts Hl). exact Hm. }
       eapply bad_at_bind_map; [apply acc_at_statements; [rewrite En; eapply room_less; eauto|lia]
         |apply bad_at_statements; [rewrite En; eapply room_less; eauto|lia]|].
       intros ss rest Hb. apply bad_at_finish. }
  rewrite Eb, En. intros b rest. split.
  - intros [(x & -> & H)|(name & mid & Hm & [(x & -> & H)|(ss & mid' & Hb & Hd & -> & ->)])].
    + left. exists x. split; auto. left. now apply fails_named_header.
    + left. exists x. split; auto. destruct Hm as [(ts' & -> & Hdr)|(Hh & -> & ->)].
      * left. apply fails_named_body. dropping.
      * right. auto.
    + right. split; auto. exists (name, ss). split; auto. apply header_body. eauto.
  - intros [(x & -> & [H|[Hh H]])|(-> & [name ss] & Ho & Hd)].
    + inversion H; subst.
      * left. exists x. auto.
      * right. destruct (drops_total ts0) as [mid Hdr]. exists name, mid. split; [eauto|].
        left. exists x. split; auto. dropping.
    + right. exists [], ts. split; [auto|]. left. exists x. auto.
    + right. apply header_body in Ho. destruct Ho as (mid & Hm & Hb). exists name, mid. split; auto.
      right. exists ss, rest. auto.
Qed.

(** * All objects *)

Definition objects_body : list object * index_ranges -> M list_source error_kind (step (list object * index_ranges) (list object)) :=
  fun '(result, r) =>
    t <- peek ;;
    match t with
    | Some _ =>
        '(o, r') <- parse_object false fuel r ;;
        skip_zero_or_more_newlines fuel ;;;
        ret (Continue (result ++ [o], r'))
    | None => ret (Break result)
    end.

Definition objects_round (a : list object * index_ranges) : reads (step (list object * index_ranges) (list object)) :=
  fun ts r rest =>
    match ts with
    | [] => rest = [] /\ r = Break (fst a)
    | _ => exists c o, snd a = ranges_at c /\ reads_object c ts o rest /\ drawable o /\
             r = Continue (fst a ++ [object_of c (fst o) (snd o)], ranges_at (count_all c (snd o)))
    end.

Definition objects_bad (a : list object * index_ranges) : reads (failure error_kind) :=
  fun ts b rest =>
    match ts with
    | [] => False
    | _ => exists c, snd a = ranges_at c /\
             (lift (fails_any_object c) ts b rest \/
              (b = Panics PanicIndex /\ exists o, reads_object c ts o rest /\ ~ drawable o))
    end.

Definition objects_ok (a : list object * index_ranges) (ts : list bytes) : Prop :=
  exists c, snd a = ranges_at c /\ room c ts /\ hd_error ts <> Some nl.

Lemma ranges_inj : forall c d, ranges_at c = ranges_at d -> c = d.
Proof. intros [] [] H. inversion H. reflexivity. Qed.

Lemma object_rest : forall c ts o rest, reads_object c ts o rest -> at_object_end rest.
Proof. intros c ts o rest [(ts' & _ & H)|(_ & _ & H)]; eapply body_rest; eauto. Qed.

Lemma object_shorter : forall c t ts o rest, t <> nl -> reads_object c (t :: ts) o rest ->
  length rest < length (t :: ts).
Proof.
  intros c t ts o rest Hn [(ts' & E & H)|(Hh & _ & H)].
  - rewrite E. apply body_shorter in H. cbn. lia.
  - inversion H as [now ts0 He|now ts0 ss0 rest0 Hb|now ts0 s mid ss0 rest0 Hs Hb]; subst.
    + cbn in He. subst. exfalso. now apply Hh.
    + congruence.
    + apply statement_shorter in Hs. apply body_shorter in Hb. lia.
Qed.

Lemma count_room : forall ss c ts rest now, reads_body c now ts ss rest -> room now ts -> room (count_all now ss) rest.
Proof.
  intros ss c ts rest now H. induction H; intros Hr; cbn; auto.
  - apply IHreads_body. eapply room_less; eauto. cbn. lia.
  - apply IHreads_body. apply statement_shorter in H. eapply room_count; eauto.
Qed.

Lemma object_room : forall c ts o rest, reads_object c ts o rest -> room c ts -> room (count_all c (snd o)) rest.
Proof.
  intros c ts o rest [(ts' & -> & H)|(_ & _ & H)] Hr; eapply count_room; eauto.
  eapply room_less; eauto. cbn. lia.
Qed.

Lemma acc_at_objects_body : forall a ts, objects_ok a ts -> length ts < fuel ->
  acc_at (objects_body a) (objects_round a) ts.
Proof.
  intros [res r] ts (c & Er & Hr & Hn) Hl. cbn [snd] in Er. subst r.
  unfold objects_body. apply acc_at_peek. destruct ts as [|t ts]; cbn [hd_error].
  - eapply acc_at_iff; [|apply acc_at_ret]. intros b rest. cbn. split; intros [-> ->]; split; auto.
  - eapply acc_at_iff; [|eapply acc_at_bind_map with (R := fun ts o rest => reads_object c ts o rest /\ drawable o);
      [eapply acc_at_iff; [|apply acc_at_object; auto]|]].
    2: { intros r rest. split; [intros (o & H1 & H2 & H3); exists o; split; [split; [exact H1|exact H2]|exact H3]|].
         intros (o & [H1 H2] & H3). eauto. }
    2: { intros o mid [Ho Hd]. apply (acc_at_map _ _ _ _ (fun _ => Continue (res ++ [object_of c (fst o) (snd o)], ranges_at (count_all c (snd o))))).
         eapply acc_here; [|apply acc_skip_zero].
         assert (length mid < length (t :: ts)); [|lia]. eapply object_shorter; eauto. intros ->. now apply Hn. }
    intros b rest. cbn [objects_round fst snd]. split.
    + intros (o & mid & [Ho Hd] & _ & Hdr & ->).
      apply drops_none in Hdr; [|apply end_not_nl; eapply object_rest; eauto]. subst mid. exists c, o. auto.
    + intros (c' & o & Ec & Ho & Hd & ->). apply ranges_inj in Ec. subst c'.
      exists o, rest. split; [auto|]. exists tt. split; auto. apply drops_done. apply end_not_nl. eapply object_rest; eauto.
Qed.

Lemma bad_at_objects_body : forall a ts, objects_ok a ts -> length ts < fuel ->
  bad_at (objects_body a) (objects_bad a) ts.
Proof.
  intros [res r] ts (c & Er & Hr & Hn) Hl. cbn [snd] in Er. subst r.
  unfold objects_body. apply bad_at_peek. destruct ts as [|t ts]; cbn [hd_error].
  - eapply bad_at_iff; [|apply bad_at_ret]. intros b rest. cbn. reflexivity.
  - eapply bad_at_iff; [|eapply bad_at_bind_map with (R := fun ts o rest => reads_object c ts o rest /\ drawable o);
      [eapply acc_at_iff; [|apply acc_at_object; auto]|apply bad_at_object; auto|]].
    2: { intros r rest. split; [intros (o & H1 & H2 & H3); exists o; split; [split; [exact H1|exact H2]|exact H3]|].
         intros (o & [H1 H2] & H3). eauto. }
    2: { intros o mid [Ho Hd]. instantiate (1 := fun _ => r_none). apply bad_at_map.
         eapply bad_here; [|apply bad_skip_zero].
         assert (length mid < length (t :: ts)); [|lia]. eapply object_shorter; eauto. intros ->. now apply Hn. }
    intros b rest. cbn [objects_bad fst snd]. split.
    + intros [H|(o & mid & _ & [])]. exists c. auto.
    + intros (c' & Ec & H). apply ranges_inj in Ec. subst c'. left. exact H.
Qed.

Lemma objects_preserved : forall a ts a' mid, objects_ok a ts -> length ts < fuel ->
  objects_round a ts (Continue a') mid -> objects_ok a' mid /\ length mid < length ts.
Proof.
  intros a ts a' mid (c & Er & Hr & Hn) Hl H. destruct ts as [|t ts]; cbn in H; [destruct H; discriminate|].
  destruct H as (c' & o & Ec & Ho & Hd & E). rewrite Er in Ec. apply ranges_inj in Ec. subst c'. inversion E; subst.
  split.
  - exists (count_all c (snd o)). split; [reflexivity|]. split; [eapply object_room; eauto|].
    apply end_not_nl. eapply object_rest; eauto.
  - eapply object_shorter; eauto. intros ->. now apply Hn.
Qed.

Lemma reads_object_named : forall c ts o rest, at_object_end ts -> ts <> [] ->
  reads_object c ts o rest <-> exists ts', ts = lit "o" :: fst o :: nl :: ts' /\ reads_body c c ts' (snd o) rest.
Proof.
  intros c ts o rest He Hn. unfold reads_object. split; [|auto].
  intros [H|(Hh & _)]; auto. exfalso. destruct ts as [|t ts]; [auto|]. cbn in He. subst. now apply Hh.
Qed.

(** Objects that start with [o], up to the end of the tokens. *)
Lemma rounds_objects : forall a ts b rest c, snd a = ranges_at c -> at_object_end ts ->
  loops objects_round a ts b rest <->
  rest = [] /\ exists os, reads_objects c ts os [] /\ Forall drawable os /\ b = fst a ++ objects_of c os.
Proof.
  intros a ts b rest c Ea He. split.
  - intros H. revert c Ea He. induction H as [a ts b rest H|a ts a' mid b rest H HL IH]; intros c Ea He.
    + destruct ts as [|t ts].
      * destruct H as [-> H]. inversion H; subst. split; auto. exists []. split; [constructor|]. split; [constructor|].
        cbn. now rewrite app_nil_r.
      * destruct H as (? & ? & _ & _ & _ & H). discriminate.
    + destruct ts as [|t ts]; [destruct H; discriminate|].
      destruct H as (c' & o & Ec & Ho & Hd & E). rewrite Ea in Ec. apply ranges_inj in Ec. subst c'. inversion E; subst.
      pose proof (object_rest _ _ _ _ Ho) as He'.
      apply reads_object_named in Ho; [|auto|discriminate]. destruct Ho as (ts' & Et & Hb).
      destruct (IH (count_all c (snd o)) eq_refl He') as (-> & os & H1 & H2 & ->). split; auto.
      exists (o :: os). rewrite Et. destruct o as [name ss]. cbn [fst snd] in *. split; [econstructor; eauto|].
      split; [constructor; auto|]. cbn. rewrite <- app_assoc. reflexivity.
  - intros (-> & os & H & HF & ->). revert a c ts H Ea He. induction os as [|o os IH]; intros a c ts H Ea He.
    + inversion H; subst. apply loops_break. cbn. split; auto. now rewrite app_nil_r.
    + inversion HF; subst. inversion H; subst.
      apply (loops_continue _ _ _ (fst a ++ [object_of c name ss], ranges_at (count_all c ss)) mid).
      * cbn. exists c, (name, ss). split; auto. split; [|auto]. left. cbn. eauto.
      * replace (fst a ++ objects_of c ((name, ss) :: os))
          with (fst (fst a ++ [object_of c name ss], ranges_at (count_all c ss)) ++ objects_of (count_all c ss) os)
          by (cbn; now rewrite <- app_assoc).
        apply (IH H3 _ (count_all c ss)); auto. eapply body_rest; eauto.
Qed.

Definition fails_objects (c : counts) (ts : list bytes) (x : complaint) (rest : list bytes) : Prop :=
  exists os mid, reads_objects c ts os mid /\ Forall drawable os /\
    fails_object (count_objects c os) mid x rest.

Definition panics_objects (c : counts) (ts : list bytes) (rest : list bytes) : Prop :=
  exists os o, reads_objects c ts (os ++ [o]) rest /\ Forall drawable os /\ ~ drawable o.

Lemma bad_rounds_objects : forall a ts b rest c, snd a = ranges_at c -> at_object_end ts ->
  loops_bad objects_round objects_bad a ts b rest <->
  lift (fails_objects c) ts b rest \/ (b = Panics PanicIndex /\ panics_objects c ts rest).
Proof.
  intros a ts b rest c Ea He. split.
  - intros H. revert c Ea He. induction H as [a ts b rest H|a ts a' mid b rest H HL IH]; intros c Ea He.
    + destruct ts as [|t ts]; [destruct H|].
      destruct H as (c' & Ec & [(x & -> & [H|[Hh _]])|(-> & o & Ho & Hd)]);
        rewrite Ea in Ec; apply ranges_inj in Ec; subst c'.
      * left. exists x. split; auto. exists [], (t :: ts). split; [constructor|]. split; [constructor|exact H].
      * exfalso. cbn in He. subst. now apply Hh.
      * right. split; auto. exists [], o. apply reads_object_named in Ho; [|auto|discriminate].
        destruct Ho as (ts' & Et & Hb). rewrite Et. destruct o as [name ss]. cbn. split; [|split; [constructor|auto]].
        econstructor; eauto. constructor.
    + destruct ts as [|t ts]; [destruct H; discriminate|].
      destruct H as (c' & o & Ec & Ho & Hd & E). rewrite Ea in Ec. apply ranges_inj in Ec. subst c'. inversion E; subst.
      pose proof (object_rest _ _ _ _ Ho) as He'.
      apply reads_object_named in Ho; [|auto|discriminate]. destruct Ho as (ts' & Et & Hb). rewrite Et.
      destruct o as [name ss]. cbn [fst snd] in *.
      destruct (IH (count_all c ss) eq_refl He') as [(x & -> & os & m & H1 & H2 & H3)|(-> & os & o & H1 & H2 & H3)].
      * left. exists x. split; auto. exists ((name, ss) :: os), m. split; [econstructor; eauto|].
        split; [constructor; auto|]. exact H3.
      * right. split; auto. exists ((name, ss) :: os), o. split; [cbn; econstructor; eauto|].
        split; [constructor; auto|]. exact H3.
  - intros [(x & -> & os & mid & H & HF & Hx)|(-> & os & o & H & HF & Hx)].
    + revert a c ts H Ea He Hx. induction os as [|o os IH]; intros a c ts H Ea He Hx.
      * inversion H; subst. apply bad_now. destruct mid as [|t ts]; [inversion Hx as [? ? ? Hh|]; inversion Hh|].
        cbn. exists c. split; auto. left. exists x. split; auto. left. exact Hx.
      * inversion HF; subst. inversion H; subst.
        apply (bad_later _ _ _ _ (fst a ++ [object_of c name ss], ranges_at (count_all c ss)) mid0).
        -- cbn. exists c, (name, ss). split; auto. split; [|auto]. left. cbn. eauto.
        -- apply (IH H3 _ (count_all c ss)); auto. eapply body_rest; eauto.
    + revert a c ts H Ea He. induction os as [|o' os IH]; intros a c ts H Ea He.
      * inversion H; subst. match goal with K : reads_objects _ _ [] _ |- _ => inversion K; subst end.
        apply bad_now. cbn. exists c. split; auto. right. split; auto. exists (name, ss). split; auto. left. cbn. eauto.
      * inversion HF; subst. cbn [app] in H. inversion H; subst.
        apply (bad_later _ _ _ _ (fst a ++ [object_of c name ss], ranges_at (count_all c ss)) mid).
        -- cbn. exists c, (name, ss). split; auto. split; [|auto]. left. cbn. eauto.
        -- apply (IH H3 _ (count_all c ss)); auto. eapply body_rest; eauto.
Qed.

(** ** From the start of the objects *)

Definition reads_rest (ts : list bytes) (os : list (bytes * list statement)) (rest : list bytes) : Prop :=
  reads_objects no_counts ts os rest \/
  (~ at_object_end ts /\ exists ss mid os', os = ([], ss) :: os' /\
     reads_body no_counts no_counts ts ss mid /\ reads_objects (count_all no_counts ss) mid os' rest).

Lemma reads_file_iff : forall ts f rest, reads_file ts f rest <->
  exists libs mid os, f = mkObjFile libs os /\ reads_libraries ts libs mid /\ reads_rest mid os rest.
Proof.
  intros ts f rest. split.
  - intros H. inversion H; subst.
    + exists libs, mid, os. split; auto. split; auto. left. auto.
    + exists libs, mid, (([], ss) :: os). split; auto. split; auto. right. split; auto. exists ss, mid', os. auto.
  - intros (libs & mid & os & -> & Hl & [H|(Hn & ss & mid' & os' & -> & Hb & H)]).
    + econstructor; eauto.
    + eapply file_unnamed; eauto.
Qed.

Lemma end_dec : forall ts, at_object_end ts \/ ~ at_object_end ts.
Proof.
  intros [|t ts]; cbn; [auto|]. destruct (bytes_eqb_spec t (lit "o")); auto.
Qed.

Lemma objects_at_end : forall c ts os rest, reads_objects c ts os rest -> ~ at_object_end ts -> os = [] /\ rest = ts.
Proof. intros c ts os rest H Hn. inversion H; subst; auto. exfalso. apply Hn. reflexivity. Qed.

Lemma not_end_head : forall ts, ~ at_object_end ts -> exists t ts', ts = t :: ts' /\ t <> lit "o".
Proof. intros [|t ts] H; [exfalso; apply H; exact I|]. exists t, ts. split; auto. Qed.

Lemma rounds_all : forall ts b rest,
  loops objects_round ([], ranges_at no_counts) ts b rest <->
  rest = [] /\ exists os, reads_rest ts os [] /\ Forall drawable os /\ b = objects_of no_counts os.
Proof.
  intros ts b rest. destruct (end_dec ts) as [He|He].
  - rewrite (rounds_objects ([], ranges_at no_counts) ts b rest no_counts eq_refl He). cbn [fst app].
    split.
    + intros (-> & os & H & HF & ->). split; auto. exists os. split; [left; auto|auto].
    + intros (-> & os & [H|(Hn & _)] & HF & ->); [|tauto]. split; auto. exists os. auto.
  - destruct (not_end_head ts He) as (t & ts' & -> & Ht). split.
    + intros H. inversion H as [a0 ts0 b0 rest0 HR|a0 ts0 a' mid b0 rest0 HR HL]; subst.
      { destruct HR as (? & ? & _ & _ & _ & HR). discriminate. }
      destruct HR as (c & [name ss] & Ec & Ho & Hd & E). cbn [snd] in Ec. apply ranges_inj in Ec. subst c. inversion E; subst.
      pose proof (object_rest _ _ _ _ Ho) as He'.
      destruct Ho as [(ts1 & Et & _)|(_ & Hnm & Hb)]; [inversion Et; congruence|]. cbn [fst snd] in *. subst name.
      apply (rounds_objects ([object_of no_counts [] ss], ranges_at (count_all no_counts ss)) _ _ _ (count_all no_counts ss) eq_refl He') in HL.
      destruct HL as (-> & os & H1 & H2 & ->). split; auto. exists (([], ss) :: os).
      split; [right; split; [auto|exists ss, mid, os; auto]|]. split; [constructor; auto|reflexivity].
    + intros (-> & os & [H|(_ & ss & mid & os' & -> & Hb & H)] & HF & ->).
      { apply objects_at_end in H; auto. destruct H; discriminate. }
      inversion HF; subst.
      apply (loops_continue _ _ _ ([object_of no_counts [] ss], ranges_at (count_all no_counts ss)) mid).
      * cbn. exists no_counts, ([], ss). split; auto. split; [|auto]. right. cbn. split; [congruence|auto].
      * apply (rounds_objects ([object_of no_counts [] ss], ranges_at (count_all no_counts ss)) _ _ _ (count_all no_counts ss) eq_refl); [eapply body_rest; eauto|].
        split; auto. exists os'. auto.
Qed.

Definition fails_rest (ts : list bytes) (x : complaint) (rest : list bytes) : Prop :=
  (~ at_object_end ts /\ fails_body no_counts no_counts ts x rest) \/
  exists os mid, reads_rest ts os mid /\ Forall drawable os /\
    fails_object (count_objects no_counts os) mid x rest.

Lemma fails_object_head : forall c ts x rest, fails_object c ts x rest -> hd_error ts = Some (lit "o").
Proof. intros c ts x rest H. inversion H; subst; auto. match goal with K : fails_header _ _ _ |- _ => inversion K; auto end. Qed.

Lemma bad_rounds_all : forall ts b rest,
  loops_bad objects_round objects_bad ([], ranges_at no_counts) ts b rest <->
  lift fails_rest ts b rest \/
  (b = Panics PanicIndex /\ exists os o, reads_rest ts (os ++ [o]) rest /\ Forall drawable os /\ ~ drawable o).
Proof.
  intros ts b rest. destruct (end_dec ts) as [He|He].
  - rewrite (bad_rounds_objects ([], ranges_at no_counts) ts b rest no_counts eq_refl He). split.
    + intros [(x & -> & os & mid & H1 & H2 & H3)|(-> & os & o & H1 & H2 & H3)].
      * left. exists x. split; auto. right. exists os, mid. split; [left; auto|auto].
      * right. split; auto. exists os, o. split; [left; auto|auto].
    + intros [(x & -> & [(Hn & _)|(os & mid & [H1|(Hn & _)] & H2 & H3)])|(-> & os & o & [H1|(Hn & _)] & H2 & H3)]; try tauto.
      * left. exists x. split; auto. exists os, mid. auto.
      * right. split; auto. exists os, o. auto.
  - destruct (not_end_head ts He) as (t & ts' & -> & Ht). split.
    + intros H. inversion H as [a0 ts0 b0 rest0 HF|a0 ts0 a' mid b0 rest0 HR HL]; subst.
      * destruct HF as (c & Ec & HF). cbn [snd] in Ec. apply ranges_inj in Ec. subst c.
        destruct HF as [(x & -> & [HF|(_ & HF)])|(-> & o & Ho & Hd)].
        -- apply fails_object_head in HF. inversion HF; congruence.
        -- left. exists x. split; auto. left. auto.
        -- right. split; auto. destruct Ho as [(ts1 & Et & _)|(_ & Hnm & Hb)]; [inversion Et; congruence|].
           exists [], o. split; [|split; [constructor|auto]]. destruct o as [name ss]. cbn [fst snd] in *. subst name.
           right. split; auto. exists ss, rest, []. split; auto. split; auto. constructor.
      * destruct HR as (c & [name ss] & Ec & Ho & Hd & E). cbn [snd] in Ec. apply ranges_inj in Ec. subst c. inversion E; subst.
        pose proof (object_rest _ _ _ _ Ho) as He'.
        destruct Ho as [(ts1 & Et & _)|(_ & Hnm & Hb)]; [inversion Et; congruence|]. cbn [fst snd] in *. subst name.
        apply (bad_rounds_objects ([object_of no_counts [] ss], ranges_at (count_all no_counts ss)) _ _ _ (count_all no_counts ss) eq_refl He') in HL.
        destruct HL as [(x & -> & os & m & H1 & H2 & H3)|(-> & os & o & H1 & H2 & H3)].
        -- left. exists x. split; auto. right. exists (([], ss) :: os), m.
           split; [right; split; [auto|exists ss, mid, os; auto]|]. split; [constructor; auto|exact H3].
        -- right. split; auto. exists (([], ss) :: os), o.
           split; [right; split; [auto|exists ss, mid, (os ++ [o]); auto]|]. split; [constructor; auto|exact H3].
    + intros [(x & -> & [(_ & HF)|(os & m & [H|(_ & ss & mid & os' & -> & Hb & H)] & HF & Hx)])|(-> & os & o & [H|(_ & ss & mid & os' & E & Hb & H)] & HF & Hx)].
      * apply bad_now. cbn. exists no_counts. split; auto. left. exists x. split; auto. right. split; [cbn; congruence|auto].
      * apply objects_at_end in H; auto. destruct H as [-> ->]. apply fails_object_head in Hx. inversion Hx; congruence.
      * inversion HF; subst.
        apply (bad_later _ _ _ _ ([object_of no_counts [] ss], ranges_at (count_all no_counts ss)) mid).
        -- cbn. exists no_counts, ([], ss). split; auto. split; [|auto]. right. cbn. split; [congruence|auto].
        -- apply (bad_rounds_objects ([object_of no_counts [] ss], ranges_at (count_all no_counts ss)) _ _ _ (count_all no_counts ss) eq_refl); [eapply body_rest; eauto|].
           left. exists x. split; auto. exists os', m. auto.
      * apply objects_at_end in H; auto. destruct H as [H _]. destruct os; discriminate.
      * destruct os as [|o1 os].
        -- inversion E; subst. inversion H; subst. apply bad_now. cbn. exists no_counts. split; auto. right. split; auto.
           exists ([], ss). split; auto. right. cbn. split; [congruence|auto].
        -- inversion E; subst. inversion HF; subst.
           apply (bad_later _ _ _ _ ([object_of no_counts [] ss], ranges_at (count_all no_counts ss)) mid).
           ++ cbn. exists no_counts, ([], ss). split; auto. split; [|auto]. right. cbn. split; [congruence|auto].
           ++ apply (bad_rounds_objects ([object_of no_counts [] ss], ranges_at (count_all no_counts ss)) _ _ _ (count_all no_counts ss) eq_refl); [eapply body_rest; eauto|].
              right. split; auto. exists os, o. auto.
Qed.

Lemma acc_at_objects : forall ts, room no_counts ts -> hd_error ts <> Some nl -> length ts < fuel ->
  acc_at (parse_objects false fuel)
    (fun ts b rest => rest = [] /\ exists os, reads_rest ts os [] /\ Forall drawable os /\ b = objects_of no_counts os) ts.
Proof.
  intros ts Hr Hn Hl.
  change (acc_at (skip_zero_or_more_newlines fuel ;;; loop fuel objects_body ([], ranges_at no_counts))
    (fun ts b rest => rest = [] /\ exists os, reads_rest ts os [] /\ Forall drawable os /\ b = objects_of no_counts os) ts).
  eapply acc_at_iff; [|eapply acc_at_bind; [eapply acc_here; [exact Hl|apply acc_skip_zero]|]].
  2: { intros u mid Hd. instantiate (1 := fun _ => loops objects_round ([], ranges_at no_counts)).
       apply drops_none in Hd; auto. subst mid.
       apply (acc_at_loop fuel objects_round objects_ok).
       - exact objects_preserved.
       - exact acc_at_objects_body.
       - exact Hl.
       - exists no_counts. auto. }
  intros b rest. rewrite <- rounds_all. split.
  - intros (_ & mid & Hd & H). apply drops_none in Hd; auto. subst mid. exact H.
  - intros H. exists tt, ts. split; auto. now apply drops_done.
Qed.

Lemma bad_at_objects : forall ts, room no_counts ts -> hd_error ts <> Some nl -> length ts < fuel ->
  bad_at (parse_objects false fuel)
    (fun ts b rest => lift fails_rest ts b rest \/
       (b = Panics PanicIndex /\ exists os o, reads_rest ts (os ++ [o]) rest /\ Forall drawable os /\ ~ drawable o)) ts.
Proof.
  intros ts Hr Hn Hl.
  change (bad_at (skip_zero_or_more_newlines fuel ;;; loop fuel objects_body ([], ranges_at no_counts))
    (fun ts b rest => lift fails_rest ts b rest \/
       (b = Panics PanicIndex /\ exists os o, reads_rest ts (os ++ [o]) rest /\ Forall drawable os /\ ~ drawable o)) ts).
  eapply bad_at_iff; [|eapply bad_at_bind; [eapply acc_here; [exact Hl|apply acc_skip_zero]|eapply bad_here; [exact Hl|apply bad_skip_zero]|]].
  2: { intros u mid Hd. instantiate (1 := fun _ => loops_bad objects_round objects_bad ([], ranges_at no_counts)).
       apply drops_none in Hd; auto. subst mid.
       apply (bad_at_loop fuel objects_round objects_ok).
       - exact objects_preserved.
       - exact acc_at_objects_body.
       - exact bad_at_objects_body.
       - exact Hl.
       - exists no_counts. auto. }
  intros b rest. rewrite <- bad_rounds_all. split.
  - intros [[]|(_ & mid & Hd & H)]. apply drops_none in Hd; auto. subst mid. exact H.
  - intros H. right. exists tt, ts. split; auto. now apply drops_done.
Qed.

(** * Material libraries *)

Definition library_round (libs : list bytes) : reads (step (list bytes) (list bytes)) := fun ts r rest =>
  (exists ts' names mid, ts = lit "mtllib" :: ts' /\ reads_line ts' names mid /\ drops_newlines mid rest /\
     r = Continue (libs ++ names)) \/
  (hd_error ts <> Some (lit "mtllib") /\ rest = ts /\ r = Break libs).

Lemma acc_library_body : forall libs, acc fuel
  (t <- peek ;;
   if is_tok t "mtllib" then
     '(_, libs') <- parse_material_library_line fuel libs ;;
     skip_zero_or_more_newlines fuel ;;;
     ret (Continue libs')
   else ret (Break libs) : M list_source error_kind _) (library_round libs).
Proof.
  intros libs ts Hl. apply acc_at_peek. destruct (is_tok (hd_error ts) "mtllib") eqn:E.
  - apply is_tok_spec in E. destruct ts as [|t ts]; [discriminate|]. cbn in E. inversion E; subst t.
    unfold parse_material_library_line.
    eapply acc_at_iff; [|eapply acc_at_bind_map with
      (R := fun ts names rest => exists ts', ts = lit "mtllib" :: ts' /\ reads_line ts' names rest);
      [eapply acc_here; [exact Hl|];
       eapply acc_iff; [|eapply acc_bind; [apply acc_expect_tag|intros ?; apply acc_names_until_newline]]|]].
    2: { intros ts0 r rest _. split.
         - intros (_ & mid & -> & names & H & ->). exists names. split; [eauto|reflexivity].
         - intros (names & (ts' & -> & H) & ->). exists tt, ts'. split; auto. eauto. }
    2: { intros names mid (ts' & E' & H). apply (acc_at_map _ _ _ _ (fun _ => Continue (libs ++ names))).
         eapply acc_here; [|apply acc_skip_zero]. inversion E'; subst. apply line_shorter in H. cbn in Hl. lia. }
    intros r rest. split.
    + intros (names & mid & (ts' & E' & H) & _ & Hd & ->). left. exists ts', names, mid. auto.
    + intros [(ts' & names & mid & E' & H & Hd & ->)|(Hn & _)]; [|exfalso; now apply Hn].
      exists names, mid. split; [eauto|]. exists tt. auto.
  - assert (Hn : hd_error ts <> Some (lit "mtllib")) by (rewrite <- is_tok_spec; congruence).
    eapply acc_at_iff; [|apply acc_at_ret]. intros r rest. split.
    + intros [-> ->]. right. auto.
    + intros [(ts' & names & mid & -> & _)|(_ & -> & ->)]; [exfalso; now apply Hn|]. split; reflexivity.
Qed.

Lemma bad_library_body : forall libs, bad fuel
  (t <- peek ;;
   if is_tok t "mtllib" then
     '(_, libs') <- parse_material_library_line fuel libs ;;
     skip_zero_or_more_newlines fuel ;;;
     ret (Continue libs')
   else ret (Break libs) : M list_source error_kind (step (list bytes) (list bytes))) r_none.
Proof.
  intros libs ts Hl. apply bad_at_peek. destruct (is_tok (hd_error ts) "mtllib") eqn:E; [|apply bad_at_ret].
  apply is_tok_spec in E. destruct ts as [|t ts]; [discriminate|]. cbn in E. inversion E; subst t.
  unfold parse_material_library_line. cbn in Hl.
  assert (Hx : bad_at (expect_tag (lit "mtllib") ;;; names_until_newline fuel libs : M list_source error_kind _) r_none (lit "mtllib" :: ts)).
  { eapply bad_at_iff; [|eapply bad_here; [cbn; exact Hl|];
      eapply bad_bind; [apply acc_expect_tag|apply bad_expect_tag|intros ?; apply bad_names_until_newline]].
    intros b rest. split; [|intros []]. intros [(c & _ & H & _)|(_ & _ & _ & [])]. congruence. }
  assert (Hy : acc_at (expect_tag (lit "mtllib") ;;; names_until_newline fuel libs : M list_source error_kind _)
    (fun ts r rest => exists ts' names, ts = lit "mtllib" :: ts' /\ reads_line ts' names rest /\ r = (length names, libs ++ names)) (lit "mtllib" :: ts)).
  { eapply acc_at_iff; [|eapply acc_here; [cbn; exact Hl|];
      eapply acc_bind; [apply acc_expect_tag|intros ?; apply acc_names_until_newline]].
    intros b rest. split.
    - intros (_ & mid & E' & names & H & ->). eauto.
    - intros (ts' & names & E' & H & ->). exists tt, ts'. eauto. }
  eapply bad_at_iff; [|eapply bad_at_bind; [exact Hy|exact Hx|]].
  2: { intros [k libs'] mid (ts' & names & E' & H & _). instantiate (1 := fun _ => r_none). apply bad_at_map.
       eapply bad_here; [|apply bad_skip_zero]. inversion E'; subst. apply line_shorter in H. lia. }
  intros b rest. split; [|intros []]. intros [[]|(_ & _ & _ & [])].
Qed.

Lemma progressive_library : progressive fuel library_round.
Proof.
  intros libs ts libs' mid _ [(ts' & names & m & -> & H & Hd & _)|(_ & _ & H)]; [|discriminate].
  apply line_shorter in H. apply drops_shorter in Hd. cbn. lia.
Qed.

Lemma libraries_drop : forall ts ts' libs rest, drops_newlines ts ts' ->
  reads_libraries ts libs rest <-> reads_libraries ts' libs rest.
Proof.
  intros ts ts' libs rest H. induction H as [ts ts' H IH|ts H]; [|tauto].
  rewrite <- IH. split.
  - intros HB. inversion HB; subst; auto. tauto.
  - apply libraries_blank.
Qed.

Lemma libraries_shorter : forall ts libs rest, reads_libraries ts libs rest -> length rest <= length ts.
Proof.
  intros ts libs rest H. induction H; cbn; auto. apply line_shorter in H. lia.
Qed.

Lemma libraries_rest : forall ts libs rest, reads_libraries ts libs rest -> hd_error rest <> Some nl.
Proof. intros ts libs rest H. induction H; auto. destruct ts; cbn in *; [discriminate|]. destruct H. congruence. Qed.

Lemma rounds_libraries : forall libs ts b rest, hd_error ts <> Some nl ->
  loops library_round libs ts b rest <-> exists new, reads_libraries ts new rest /\ b = libs ++ new.
Proof.
  intros libs ts b rest Hn. split.
  - intros H. revert Hn. induction H as [libs ts b rest H|libs ts libs' mid b rest H HL IH]; intros Hn.
    + destruct H as [(? & ? & ? & _ & _ & _ & H)|(Hh & -> & H)]; inversion H; subst.
      exists []. split; [|now rewrite app_nil_r]. apply libraries_end. destruct ts; auto. cbn in *. split; congruence.
    + destruct H as [(ts' & names & m & -> & H & Hd & E)|(_ & _ & E)]; inversion E; subst.
      destruct (IH (drops_head _ _ Hd)) as (new & Hr & ->). exists (names ++ new). split; [|now rewrite app_assoc].
      eapply libraries_line; eauto. now apply (libraries_drop _ _ _ _ Hd).
  - intros (new & H & ->). remember (length ts) as n eqn:En. revert libs ts new En Hn H.
    induction n as [n IH] using lt_wf_ind. intros libs ts new En Hn H. inversion H; subst.
    + exfalso. now apply Hn.
    + destruct (drops_total mid) as [mid' Hd]. apply line_shorter in H0 as Hs. apply drops_shorter in Hd as Hs'.
      apply (loops_continue _ _ _ (libs ++ names) mid').
      * left. exists ts0, names, mid. auto.
      * rewrite app_assoc. eapply (IH (length mid')); [cbn; lia|reflexivity|eapply drops_head; eauto|].
        now apply (libraries_drop _ _ _ _ Hd).
    + rewrite app_nil_r. apply loops_break. right. split; auto. destruct rest; [discriminate|]. cbn. destruct H0. congruence.
Qed.

Lemma acc_libraries : acc fuel (parse_material_libraries fuel) reads_libraries.
Proof.
  unfold parse_material_libraries.
  eapply acc_iff; [|eapply acc_bind; [apply acc_skip_zero|intros ?; apply acc_loop;
    [apply acc_library_body|apply progressive_library]]].
  intros ts libs rest _. split.
  - intros (_ & mid & Hd & H). apply rounds_libraries in H; [|eapply drops_head; eauto].
    destruct H as (new & H & ->). now apply (libraries_drop _ _ _ _ Hd).
  - intros H. destruct (drops_total ts) as [mid Hd]. exists tt, mid. split; auto.
    apply rounds_libraries; [eapply drops_head; eauto|]. exists libs. split; auto. now apply (libraries_drop _ _ _ _ Hd).
Qed.

Lemma bad_libraries : bad fuel (parse_material_libraries fuel) r_none.
Proof.
  unfold parse_material_libraries.
  eapply bad_iff; [|eapply bad_bind; [apply acc_skip_zero|apply bad_skip_zero|intros ?;
    eapply (bad_loop fuel library_round _ _ (fun _ => r_none)); [apply acc_library_body|apply bad_library_body|apply progressive_library]]].
  intros ts b rest _. split; [|intros []]. intros [[]|(_ & mid & _ & H)].
  induction H as [a ts' b rest []|]; auto.
Qed.

(** * The whole file *)

Lemma acc_at_objset : forall ts, room no_counts ts -> length ts < fuel ->
  acc_at (parse_objset false fuel)
    (fun ts set rest => rest = [] /\ exists f, reads_file ts f [] /\ Forall drawable (file_objects f) /\ set = file_means f) ts.
Proof.
  intros ts Hr Hl. unfold parse_objset.
  eapply acc_at_iff; [|eapply acc_at_bind; [eapply acc_here; [exact Hl|apply acc_libraries]|]].
  2: { intros libs mid H. pose proof (libraries_shorter _ _ _ H).
       apply (acc_at_map _ _ _ _ (fun objs => mkObjectSet libs objs)). apply acc_at_objects.
       - eapply room_less; eauto.
       - eapply libraries_rest; eauto.
       - lia. }
  intros set rest. split.
  - intros (libs & mid & H & objs & (-> & os & Hos & HF & ->) & ->). split; auto.
    exists (mkObjFile libs os). split; [apply reads_file_iff; eauto 10|auto].
  - intros (-> & f & H & HF & ->). apply reads_file_iff in H. destruct H as (libs & mid & os & -> & H & Hos).
    exists libs, mid. split; auto. eexists. split; [split; [reflexivity|exists os; eauto]|reflexivity].
Qed.

Lemma bad_at_objset : forall ts, room no_counts ts -> length ts < fuel ->
  bad_at (parse_objset false fuel)
    (fun ts b rest => lift fails_file ts b rest \/ (b = Panics PanicIndex /\ panics_file ts rest)) ts.
Proof.
  intros ts Hr Hl. unfold parse_objset.
  eapply bad_at_iff; [|eapply bad_at_bind; [eapply acc_here; [exact Hl|apply acc_libraries]|eapply bad_here; [exact Hl|apply bad_libraries]|]].
  2: { intros libs mid H. pose proof (libraries_shorter _ _ _ H). apply bad_at_map. apply bad_at_objects.
       - eapply room_less; eauto.
       - eapply libraries_rest; eauto.
       - lia. }
  intros b rest. split.
  - intros [[]|(libs & mid & H & [(x & -> & [[He Hf]|(os & m & Hos & HF & Hf)])|(-> & os & o & Hos & HF & Hd)])].
    + left. exists x. split; auto. eapply fails_first; eauto.
    + left. exists x. split; auto. eapply (fails_next _ (mkObjFile libs os)); eauto. apply reads_file_iff. eauto 10.
    + right. split; auto. exists libs, os, o. split; [apply reads_file_iff; eauto 10|auto].
  - intros [(x & -> & H)|(-> & libs & os & o & H & HF & Hd)].
    + right. inversion H; subst.
      * exists libs, mid. split; auto. left. exists x. split; auto. left. auto.
      * apply reads_file_iff in H0. destruct H0 as (libs & m & os & -> & Hl' & Hos).
        exists libs, m. split; auto. left. exists x. split; auto. right. exists os, mid. auto.
    + right. apply reads_file_iff in H. destruct H as (libs' & m & os' & E & Hl' & Hos). inversion E; subst.
      exists libs', m. split; auto. right. split; auto. exists os, o. auto.
Qed.

End File.
