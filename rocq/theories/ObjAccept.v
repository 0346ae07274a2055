(** The parsing functions of src/obj.rs over a token list, characterized by the
    relations of ObjSpec.v and ObjErrorSpec.v (release build). *)
From Verif Require Import ObjModel MtlModel SourceProofs ConsumeProofs RunProofs ObjSpec ObjErrorSpec.
Local Open Scope list_scope.

Arguments RustStd.parse_f64 : simpl never.
Arguments RustStd.parse_isize : simpl never.
Arguments RustStd.parse_usize : simpl never.
Arguments lit : simpl never.
Arguments nl : simpl never.

Definition lift {K} (C : reads (K * bytes)) : reads (failure K) :=
  fun ts b rest => exists c, b = Fails (fst c) (snd c) /\ C ts c rest.

(** ** Branches *)

Lemma acc_if : forall fuel K A (b : bool) (m1 m2 : M list_source K A) R1 R2,
  acc fuel m1 R1 -> acc fuel m2 R2 ->
  acc fuel (if b then m1 else m2) (fun ts a rest => if b then R1 ts a rest else R2 ts a rest).
Proof. intros. destruct b; auto. Qed.

Lemma bad_if : forall fuel K A (b : bool) (m1 m2 : M list_source K A) R1 R2,
  bad fuel m1 R1 -> bad fuel m2 R2 ->
  bad fuel (if b then m1 else m2) (fun ts a rest => if b then R1 ts a rest else R2 ts a rest).
Proof. intros. destruct b; auto. Qed.

Lemma acc_opt : forall fuel K A X (o : option X) (f : X -> M list_source K A) g R1 R2,
  (forall x, acc fuel (f x) (R1 x)) -> acc fuel g R2 ->
  acc fuel (match o with Some x => f x | None => g end)
    (fun ts a rest => match o with Some x => R1 x ts a rest | None => R2 ts a rest end).
Proof. intros. destruct o; auto. Qed.

Lemma bad_opt : forall fuel K A X (o : option X) (f : X -> M list_source K A) g R1 R2,
  (forall x, bad fuel (f x) (R1 x)) -> bad fuel g R2 ->
  bad fuel (match o with Some x => f x | None => g end)
    (fun ts a rest => match o with Some x => R1 x ts a rest | None => R2 ts a rest end).
Proof. intros. destruct o; auto. Qed.

Lemma acc_opt' : forall fuel K A X (o : option X) (f : X -> M list_source K A) g R1 R2,
  (forall x, acc fuel (f x) (R1 x)) -> acc fuel g R2 ->
  acc fuel (match o with None => g | Some x => f x end)
    (fun ts a rest => match o with Some x => R1 x ts a rest | None => R2 ts a rest end).
Proof. intros. destruct o; auto. Qed.

Lemma acc_pair : forall fuel K A X Y (x : X * Y) (f : X -> Y -> M list_source K A) R,
  (forall a b, acc fuel (f a b) (R a b)) ->
  acc fuel (let '(a, b) := x in f a b) (fun ts r rest => let '(a, b) := x in R a b ts r rest).
Proof. intros. destruct x; auto. Qed.

Lemma bad_pair : forall fuel K A X Y (x : X * Y) (f : X -> Y -> M list_source K A) R,
  (forall a b, bad fuel (f a b) (R a b)) ->
  bad fuel (let '(a, b) := x in f a b) (fun ts r rest => let '(a, b) := x in R a b ts r rest).
Proof. intros. destruct x; auto. Qed.

Ltac no_cycle :=
  exfalso;
  match goal with
  | H : @eq (list _) _ _ |- _ => apply (f_equal (@length bytes)) in H; cbn in H; lia
  end.

Create HintDb run.

Ltac run_step :=
  first
  [ solve [eauto with run]
  | apply acc_ret | apply acc_error | apply acc_peek | apply acc_next | apply acc_panics
  | apply bad_ret | apply bad_error | apply bad_peek | apply bad_next | apply bad_panics
  | eapply acc_if | eapply bad_if
  | eapply acc_pair; intros ? ? | eapply bad_pair; intros ? ?
  | eapply acc_opt; [intros ?|] | eapply bad_opt; [intros ?|]
  | eapply acc_bind; [|intros ?]
  | eapply bad_bind; [| |intros ?] ].
Ltac run := repeat run_step.

Ltac crush :=
  unfold r_bad_bind, r_bind, r_ret, r_none, r_next, r_peek, lift in *;
  repeat match goal with
  | H : exists _, _ |- _ => destruct H
  | H : _ /\ _ |- _ => destruct H
  | H : False |- _ => destruct H
  | H : _ \/ _ |- _ => destruct H
  | H : (_, _) = (_, _) |- _ => inversion H; clear H
  | H : Some _ = Some _ |- _ => inversion H; clear H
  | H : _ :: _ = _ :: _ |- _ => inversion H; clear H
  | H : Fails _ _ = Fails _ _ |- _ => inversion H; clear H
  | H : Some _ = hd_error ?ts |- _ => destruct ts; [discriminate H|]
  | H : None = hd_error ?ts |- _ => destruct ts; [clear H|discriminate H]
  | H : Some _ = None |- _ => discriminate H
  | H : None = Some _ |- _ => discriminate H
  | H : Break _ = Continue _ |- _ => discriminate H
  | H : Continue _ = Break _ |- _ => discriminate H
  | H : Break _ = Break _ |- _ => inversion H; clear H
  | H : Continue _ = Continue _ |- _ => inversion H; clear H
  | H : [] = _ :: _ |- _ => discriminate H
  | H : _ :: _ = [] |- _ => discriminate H
  | x := _ |- _ => subst x
  end; subst; cbn [hd_error tl fst snd] in *.

Section Obj.
Context (fuel : nat).

Lemma acc_next_string : acc fuel ObjModel.next_string (fun ts t rest => ts = t :: rest).
Proof.
  eapply acc_iff; [|unfold ObjModel.next_string; run].
  intros ts t rest _. split.
  - intros H. crush. destruct ts; cbn in *; crush; auto.
  - intros ->. crush. exists (Some t), rest. auto.
Qed.

Lemma bad_next_string : bad fuel ObjModel.next_string
  (lift (fun ts c rest => ts = [] /\ c = (EndOfFile, msg_end) /\ rest = [])).
Proof.
  eapply bad_iff; [|unfold ObjModel.next_string; run].
  intros ts b rest _. split.
  - intros H. crush. destruct ts; cbn in *; crush. eexists; split; [|eauto]. reflexivity.
  - intros H. crush. right. exists None, []. cbn. auto.
Qed.
Hint Resolve acc_next_string bad_next_string : run.

Lemma acc_expect_tag : forall tag, acc fuel (ObjModel.expect_tag tag) (fun ts _ rest => ts = tag :: rest).
Proof.
  intros tag. eapply acc_iff; [|unfold ObjModel.expect_tag; run].
  intros ts [] rest _. split.
  - intros H. crush. destruct ts as [|t ts]; cbn in *; crush; auto.
    destruct (bytes_eqb_spec t tag); cbn in *; crush. reflexivity.
  - intros ->. crush. exists (Some tag), rest. cbn. rewrite bytes_eqb_refl. cbn. auto.
Qed.

Lemma bad_expect_tag : forall tag, bad fuel (ObjModel.expect_tag tag)
  (lift (fun ts c rest => match ts with
                          | [] => c = (EndOfFile, msg_end) /\ rest = []
                          | t :: rest' => t <> tag /\ c = (ExpectedTagStatement, msg_tag tag t) /\ rest = rest'
                          end)).
Proof.
  intros tag. eapply bad_iff; [|unfold ObjModel.expect_tag; run].
  intros ts b rest _. split.
  - intros H. crush. destruct ts as [|t ts]; cbn in *; crush.
    + eexists; split; [|eauto]. reflexivity.
    + destruct (bytes_eqb_spec t tag); cbn in *; crush. eexists; split; [|eauto]. reflexivity.
  - intros H. crush. right. destruct ts as [|t ts]; crush.
    + exists None, []. cbn. auto.
    + exists (Some t), ts. cbn. apply bytes_eqb_neq in H. rewrite H. cbn. auto.
Qed.
Hint Resolve acc_expect_tag bad_expect_tag : run.

Lemma acc_parse_f64 : acc fuel ObjModel.parse_f64
  (fun ts x rest => exists t, ts = t :: rest /\ float_token t x).
Proof.
  eapply acc_iff; [|unfold ObjModel.parse_f64; run].
  intros ts x rest _. unfold float_token. split.
  - intros H. crush. destruct (RustStd.parse_f64 x0) eqn:E; crush. eauto.
  - intros H. crush. exists x0, rest. rewrite H0. auto.
Qed.

Lemma bad_parse_f64 : bad fuel ObjModel.parse_f64 (lift not_float).
Proof.
  eapply bad_iff; [|unfold ObjModel.parse_f64; run].
  intros ts b rest _. split.
  - intros H. crush.
    + eexists; split; [|constructor]. reflexivity.
    + destruct (RustStd.parse_f64 x) eqn:E; crush.
      exists (ExpectedFloat, msg_float x). split; [reflexivity|]. constructor. unfold float_token. congruence.
  - intros H. crush. inversion H0; subst; cbn.
    + left. eexists; split; [|eauto]. reflexivity.
    + right. exists t, rest. split; auto. destruct (RustStd.parse_f64 t) eqn:E; auto.
      exfalso. eapply H; eauto.
Qed.
Hint Resolve acc_parse_f64 bad_parse_f64 : run.

(** An optional number, before its default is filled in. *)
Definition reads_opt : reads (option f64) := fun ts o rest =>
  match o with
  | Some x => exists t, ts = t :: rest /\ float_token t x
  | None => rest = ts /\ match ts with [] => True | t :: _ => forall x, ~ float_token t x end
  end.

Lemma optional_opt : forall d ts x rest,
  reads_optional d ts x rest <-> exists o, x = unwrap_or o d /\ reads_opt ts o rest.
Proof.
  intros d ts x rest. split.
  - intros H. inversion H; subst; [exists (Some x)|exists None|exists None]; cbn; eauto.
  - intros ([y|] & -> & H); cbn in *; crush; [now constructor|].
    destruct ts; [constructor|now apply optional_other].
Qed.

Lemma acc_try_once : acc fuel (try_once RustStd.parse_f64) reads_opt.
Proof.
  eapply acc_iff; [|unfold try_once, advance; run].
  intros ts o rest _. unfold reads_opt. split.
  - intros H. crush. destruct ts as [|t ts]; cbn in *; crush; auto.
    destruct (RustStd.parse_f64 t) eqn:E; crush; eauto.
    split; auto. unfold float_token. congruence.
  - intros H. crush. exists (hd_error ts), ts. split; auto.
    destruct o as [x|]; crush.
    + unfold float_token in *. rewrite H0. exists tt, rest. split; auto. exists (Some x0), rest. auto.
    + destruct ts as [|t ts]; cbn; auto.
      destruct (RustStd.parse_f64 t) eqn:E; auto. exfalso. eapply H0; eauto.
Qed.

Lemma bad_try_once : bad fuel (try_once RustStd.parse_f64) r_none.
Proof.
  eapply bad_iff; [|unfold try_once, advance; run].
  intros ts b rest _. split; [|intros []].
  intros H. crush; destruct ts as [|t ts]; cbn in *; crush;
    destruct (RustStd.parse_f64 t) eqn:E; crush.
Qed.

Hint Resolve acc_try_once bad_try_once : run.

(** ** Vertices *)

Ltac build :=
  repeat first
    [ solve [eauto 6]
    | match goal with
      | |- exists _ : unit, _ => exists tt
      | |- exists _, _ => eexists
      | |- _ /\ _ => split
      end ].

Lemma acc_parse_vertex : forall base now, acc fuel parse_vertex
  (fun ts v rest => reads_statement base now ts (SVertex v) rest).
Proof.
  intros base now. eapply acc_iff; [|unfold parse_vertex; run].
  intros ts v rest _. split.
  - intros H. crush. econstructor; eauto. apply optional_opt; eauto.
  - intros H. inversion H; subst.
    match goal with H : reads_optional _ _ _ _ |- _ => apply optional_opt in H end.
    crush. build.
Qed.

Lemma acc_parse_texture_vertex : forall base now, acc fuel parse_texture_vertex
  (fun ts v rest => reads_statement base now ts (STexture v) rest).
Proof.
  intros base now. eapply acc_iff; [|unfold parse_texture_vertex; run].
  intros ts v rest _. split.
  - intros H. crush. econstructor; eauto; apply optional_opt; eauto.
  - intros H. inversion H; subst.
    repeat match goal with H : reads_optional _ _ _ _ |- _ => apply optional_opt in H end.
    crush. build.
Qed.

Lemma acc_parse_normal_vertex : forall base now, acc fuel parse_normal_vertex
  (fun ts v rest => reads_statement base now ts (SNormal v) rest).
Proof.
  intros base now. eapply acc_iff; [|unfold parse_normal_vertex; run].
  intros ts v rest _. split.
  - intros H. crush. econstructor; eauto.
  - intros H. inversion H; subst. crush. build.
Qed.

(** ** Failing statements *)

(** The tag is missing (never happens where the tag has just been peeked). *)
Definition not_tag (tag : bytes) : reads complaint := fun ts c rest =>
  match ts with
  | [] => c = (EndOfFile, msg_end) /\ rest = []
  | t :: rest' => t <> tag /\ c = (ExpectedTagStatement, msg_tag tag t) /\ rest = rest'
  end.

Lemma not_tag_head : forall tag ts c rest, hd_error ts = Some tag -> ~ not_tag tag ts c rest.
Proof. intros tag [|t ts] c rest H; [discriminate|]. inversion H; subst. intros [Hn _]. auto. Qed.

Definition fails_with (tag : string) (C : reads complaint) : reads (failure ObjTypes.error_kind) :=
  lift (fun ts c rest => not_tag (lit tag) ts c rest \/ (hd_error ts = Some (lit tag) /\ C ts c rest)).

Lemma lift_fails : forall (C : reads complaint) ts c rest, C ts c rest ->
  lift C ts (Fails (fst c) (snd c)) rest.
Proof. intros. exists c. auto. Qed.

Ltac inv_fails H1 H2 :=
  inversion H2; subst; try discriminate H1;
  try (exfalso; inversion H1; subst;
       match goal with H : ~ In _ keywords |- _ => apply H; unfold keywords; cbn; auto 20 end).

(** The first computation of a [r_bad_bind] fails; or a later one. *)
Ltac now_bad := left; unfold lift; eauto.
Ltac later := right; do 2 eexists; split; [solve [eauto]|].

Lemma bad_parse_vertex : forall base now, bad fuel parse_vertex
  (fails_with "v" (fails_statement base now)).
Proof.
  intros base now. eapply bad_iff; [|unfold parse_vertex; run].
  intros ts b rest _. split.
  - intros H. crush; apply lift_fails; auto; right; split; auto.
    + now apply fails_v_x.
    + eapply fails_v_y; eauto.
    + eapply fails_v_z; eauto.
  - intros (c & -> & [H|[H1 H2]]); [now_bad|].
    right. inv_fails H1 H2; exists tt; eexists; (split; [reflexivity|]).
    + now_bad.
    + later. now_bad.
    + later. later. now_bad.
Qed.

Lemma bad_parse_normal_vertex : forall base now, bad fuel parse_normal_vertex
  (fails_with "vn" (fails_statement base now)).
Proof.
  intros base now. eapply bad_iff; [|unfold parse_normal_vertex; run].
  intros ts b rest _. split.
  - intros H. crush; apply lift_fails; auto; right; split; auto.
    + now apply fails_vn_x.
    + eapply fails_vn_y; eauto.
    + eapply fails_vn_z; eauto.
  - intros (c & -> & [H|[H1 H2]]); [now_bad|].
    right. inv_fails H1 H2; exists tt; eexists; (split; [reflexivity|]).
    + now_bad.
    + later. now_bad.
    + later. later. now_bad.
Qed.

Lemma bad_parse_texture_vertex : forall base now, bad fuel parse_texture_vertex
  (fails_with "vt" (fails_statement base now)).
Proof.
  intros base now. eapply bad_iff; [|unfold parse_texture_vertex; run].
  intros ts b rest _. split.
  - intros H. crush; apply lift_fails; auto; right; split; auto.
    now apply fails_vt.
  - intros (c & -> & [H|[H1 H2]]); [now_bad|].
    right. inv_fails H1 H2; exists tt; eexists; (split; [reflexivity|]).
    now_bad.
Qed.

(** ** Newlines *)

Inductive drops_newlines : list bytes -> list bytes -> Prop :=
| drops_more ts rest : drops_newlines ts rest -> drops_newlines (nl :: ts) rest
| drops_done ts : hd_error ts <> Some nl -> drops_newlines ts ts.

Lemma is_nl_spec : forall ts, is_nl (hd_error ts) = true <-> hd_error ts = Some nl.
Proof.
  intros [|t ts]; cbn; [split; discriminate|].
  destruct (bytes_eqb_spec t nl); subst; split; congruence.
Qed.

Lemma is_tok_spec : forall ts s, is_tok (hd_error ts) s = true <-> hd_error ts = Some (lit s).
Proof.
  intros [|t ts] s; cbn; [split; discriminate|].
  destruct (bytes_eqb_spec t (lit s)); subst; split; congruence.
Qed.

Lemma acc_skip_zero : forall K, acc fuel (K := K) (skip_zero_or_more_newlines fuel)
  (fun ts _ rest => drops_newlines ts rest).
Proof.
  intros K. eapply acc_iff; [|unfold skip_zero_or_more_newlines, advance; eapply acc_loop; [intros ?; run|]].
  - intros ts [] rest _. split.
    + intros H. induction H; crush.
      * destruct (is_nl (hd_error ts)) eqn:E; crush. apply drops_done. intros Hn.
        apply is_nl_spec in Hn. congruence.
      * destruct (is_nl (hd_error ts)) eqn:E; crush. apply is_nl_spec in E.
        destruct ts; inversion E; subst. now apply drops_more.
    + intros H. induction H.
      * eapply loops_continue; [|exact IHdrops_newlines]. crush.
        exists (Some nl), (nl :: ts). split; auto. cbn. rewrite bytes_eqb_refl. build.
      * apply loops_break. crush. exists (hd_error ts), ts. split; auto.
        destruct (is_nl (hd_error ts)) eqn:E; auto. apply is_nl_spec in E. contradiction.
  - intros a ts a' mid Hl H. crush. destruct (is_nl (hd_error ts)) eqn:E; crush; try discriminate.
    destruct ts; cbn in *; [discriminate|lia].
Qed.

Lemma bad_skip_zero : forall K, bad fuel (K := K) (skip_zero_or_more_newlines fuel) r_none.
Proof.
  intros K. eapply bad_iff; [|unfold skip_zero_or_more_newlines, advance; eapply bad_loop; [intros ?; run|intros ?; run|]].
  - intros ts b rest _. split; [|intros []].
    intros H. induction H; auto. crush; destruct (is_nl _); crush.
  - intros a ts a' mid Hl H. crush. destruct (is_nl (hd_error ts)) eqn:E; crush; try discriminate.
    destruct ts; cbn in *; [discriminate|lia].
Qed.
Hint Resolve acc_skip_zero bad_skip_zero : run.

(** ** Names up to the end of the line *)

Definition line_round (a : nat * list bytes) : reads (step (nat * list bytes) (nat * list bytes)) :=
  fun ts r rest =>
    match ts with
    | [] => r = Break a /\ rest = []
    | t :: ts' =>
        rest = ts' /\
        ((t = nl /\ r = Break a) \/ (t <> nl /\ r = Continue (fst a + 1, snd a ++ [t])))
    end.

Lemma line_rounds : forall ts n names r rest,
  loops line_round (n, names) ts r rest <->
  exists new, reads_line ts new rest /\ r = (n + length new, names ++ new).
Proof.
  intros ts n names r rest. split.
  - intros H. remember (n, names) as a eqn:Ea. revert n names Ea.
    induction H as [a ts b rest H|a ts a' mid b rest H HL IH]; intros n names ->; destruct ts as [|t ts]; cbn in H; crush.
    + exists []. cbn. rewrite Nat.add_0_r, app_nil_r. split; auto. apply line_eof. auto.
    + exists []. cbn. rewrite Nat.add_0_r, app_nil_r. split; auto. apply (line_nl []). auto.
    + edestruct IH as (new & Hn & ->); [reflexivity|]. exists (t :: new). split.
      * inversion Hn; subst; [apply line_eof|apply (line_nl (t :: new))]; cbn; intuition.
      * cbn. f_equal; [lia|]. now rewrite <- app_assoc.
  - intros (new & H & ->). revert n names. remember new as new' eqn:E. revert new E.
    assert (H0 : ~ In nl new') by (inversion H; auto).
    revert ts H H0. induction new' as [|t new' IH]; intros ts H H0 new E n names.
    + inversion H; subst; cbn; rewrite Nat.add_0_r, app_nil_r; apply loops_break; cbn; auto.
    + apply not_in_cons in H0. destruct H0 as [H0 H1].
      assert (Ht : exists ts', ts = t :: ts' /\ reads_line ts' new' rest).
      { inversion H; subst; eexists; (split; [reflexivity|]); constructor; auto. }
      destruct Ht as (ts' & -> & Hr). eapply loops_continue; [cbn; split; eauto|].
      cbn. replace (n + S (length new')) with (n + 1 + length new') by lia.
      replace (names ++ t :: new') with ((names ++ [t]) ++ new') by (now rewrite <- app_assoc).
      eapply IH; eauto.
Qed.

Lemma acc_line_body : forall a, acc fuel (K := ObjTypes.error_kind) ((fun '(parsed, names) =>
    t <- next ;;
    match t with
    | Some name =>
        if negb (bytes_eqb name nl)
        then ret (Continue (parsed + 1, names ++ [name]))
        else ret (Break (parsed, names))
    | None => ret (Break (parsed, names))
    end) a) (line_round a).
Proof.
  intros [n names]. eapply acc_iff; [|run].
  intros ts r rest _. unfold line_round. cbn [fst snd]. split.
  - intros H. crush. destruct ts as [|t ts]; cbn in *; crush; auto.
    destruct (bytes_eqb_spec t nl); cbn in *; crush; auto 6.
  - intros H. crush. exists (hd_error ts), (tl ts). split; auto.
    destruct ts as [|t ts]; cbn in *; crush; auto.
    + rewrite bytes_eqb_refl. cbn. auto.
    + apply bytes_eqb_neq in H0. rewrite H0. cbn. auto.
Qed.

Lemma progressive_line : progressive fuel line_round.
Proof. intros a ts a' mid _ H. destruct ts; cbn in H; crush. cbn. lia. Qed.

Lemma acc_names_until_newline : forall names, acc fuel (ObjModel.names_until_newline fuel names)
  (fun ts r rest => exists new, reads_line ts new rest /\ r = (length new, names ++ new)).
Proof.
  intros names. eapply acc_iff; [|apply acc_loop; [apply acc_line_body|apply progressive_line]].
  intros ts r rest _. apply line_rounds.
Qed.

Lemma bad_names_until_newline : forall names, bad fuel (ObjModel.names_until_newline fuel names) r_none.
Proof.
  intros names. eapply bad_iff; [|eapply bad_loop; [apply acc_line_body| |apply progressive_line]].
  2: { intros [n ns]. instantiate (1 := fun _ => r_none). eapply bad_iff; [|run].
       intros ts b rest _. split; [|intros []]. intros H. crush. destruct ts; cbn in *; crush.
       destruct (negb _); crush. }
  intros ts r rest _. split; [|intros []]. intros H. induction H; auto.
Qed.
Hint Resolve acc_names_until_newline bad_names_until_newline : run.

(** ** Indices *)

Definition small (n : nat) : Prop := (Z.of_nat n <= isize_max)%Z.

Lemma wrap_in : forall z, in_isize z = true -> wrap_isize z = z.
Proof.
  intros z H. unfold in_isize, isize_min, isize_max in H. unfold wrap_isize.
  apply andb_true_iff in H. rewrite Z.mod_small; lia.
Qed.

Lemma returns_isize_sub : forall K a b, returns (K := K) (isize_sub false a b) (wrap_isize (a - b)).
Proof.
  intros K a b p. unfold isize_sub. destruct (in_isize (a - b)) eqn:E; [|reflexivity].
  now rewrite wrap_in.
Qed.

Lemma parse_isize_range : forall t z, RustStd.parse_isize t = Some z -> in_isize z = true.
Proof.
  intros t z H. unfold RustStd.parse_isize in H.
  repeat match type of H with
  | context [match ?x with _ => _ end] => destruct x eqn:?; try discriminate
  end; congruence.
Qed.

(** The index [calculate_index] looks at. *)
Lemma shown_index_spec : forall lo hi z, small hi -> in_isize z = true ->
  let v := shown_index hi z in
  (Z.of_nat lo <= v < Z.of_nat hi)%Z <->
  exists k, z = Z.of_nat k /\ in_scope lo hi k.
Proof.
  intros lo hi z Hs Hz v. subst v. unfold shown_index, in_scope, small in *.
  unfold in_isize, isize_min, isize_max in *. apply andb_true_iff in Hz.
  destruct (Z.ltb_spec 0 z) as [Hp|Hp].
  - split.
    + intros H. exists (Z.to_nat z). lia.
    + intros (k & -> & H). lia.
  - split; [|intros (k & -> & H); lia]. intros H. exfalso.
    destruct (Z.le_gt_cases (Z.of_nat hi - z) (2 ^ 63 - 1)) as [H1|H1].
    + rewrite wrap_in in H; [lia|]. unfold in_isize, isize_min, isize_max. lia.
    + unfold wrap_isize in H.
      replace (Z.of_nat hi - z + 2 ^ 63)%Z with ((Z.of_nat hi - z - 2 ^ 63) + 1 * 2 ^ 64)%Z in H by lia.
      rewrite Z_mod_plus_full, Z.mod_small in H; lia.
Qed.

(** What [calculate_index] accepts. *)
Lemma acc_calculate_index : forall lo hi z, small hi -> in_isize z = true ->
  acc fuel (calculate_index false (lo, hi) z)
    (fun ts i rest => rest = ts /\ exists k, z = Z.of_nat k /\ in_scope lo hi k /\ i = local_index lo k).
Proof.
  intros lo hi z Hs Hz. pose proof (shown_index_spec lo hi z Hs Hz) as Hv. cbn zeta in Hv.
  unfold calculate_index. eapply acc_bind_returns.
  { instantiate (1 := shown_index hi z). unfold shown_index.
    destruct (Z.leb_spec z 0), (Z.ltb_spec 0 z); try lia; try apply returns_isize_sub.
    rewrite <- (wrap_in (z - 1)); [apply returns_isize_sub|].
    unfold in_isize, isize_min, isize_max in *. lia. }
  set (v := shown_index hi z) in *.
  destruct ((Z.of_nat lo <=? v)%Z && (v <? Z.of_nat hi)%Z) eqn:E.
  - eapply acc_bind_returns; [apply returns_ret|]. eapply acc_bind_returns; [apply returns_isize_sub|].
    eapply acc_iff; [|apply acc_ret]. intros ts i rest _. unfold r_ret.
    assert (Hr : (Z.of_nat lo <= v < Z.of_nat hi)%Z) by lia. pose proof Hr as Hr'.
    apply Hv in Hr. destruct Hr as (k & -> & Hk).
    assert (Hi : Z.to_nat (wrap_isize (v - Z.of_nat lo)) = local_index lo k).
    { subst v. unfold shown_index, local_index, in_scope, small, isize_max in *.
      destruct (Z.ltb_spec 0 (Z.of_nat k)); [|lia]. rewrite wrap_in; [lia|].
      unfold in_isize, isize_min, isize_max. lia. }
    rewrite Hi. split.
    + intros [-> ->]. eauto 6.
    + intros (-> & k' & Ek & _ & ->). apply Nat2Z.inj in Ek. subst. auto.
  - eapply acc_iff; [|apply acc_error]. intros ts i rest _. split; [intros []|].
    intros (_ & k & Hk & Hin & _). exfalso. assert (Hr : (Z.of_nat lo <= v < Z.of_nat hi)%Z) by (apply Hv; eauto).
    lia.
Qed.

Lemma bad_calculate_index : forall lo hi z, small hi -> in_isize z = true ->
  bad fuel (calculate_index false (lo, hi) z)
    (lift (fun ts c rest => rest = ts /\ (forall k, z = Z.of_nat k -> ~ in_scope lo hi k) /\
                            c = (VTNIndexOutOfRange, msg_range lo hi (shown_index hi z)))).
Proof.
  intros lo hi z Hs Hz. pose proof (shown_index_spec lo hi z Hs Hz) as Hv. cbn zeta in Hv.
  unfold calculate_index. eapply bad_bind_returns.
  { instantiate (1 := shown_index hi z). unfold shown_index.
    destruct (Z.leb_spec z 0), (Z.ltb_spec 0 z); try lia; try apply returns_isize_sub.
    rewrite <- (wrap_in (z - 1)); [apply returns_isize_sub|].
    unfold in_isize, isize_min, isize_max in *. lia. }
  set (v := shown_index hi z) in *.
  destruct ((Z.of_nat lo <=? v)%Z && (v <? Z.of_nat hi)%Z) eqn:E.
  - eapply bad_bind_returns; [apply returns_ret|]. eapply bad_bind_returns; [apply returns_isize_sub|].
    eapply bad_iff; [|apply bad_ret]. intros ts i rest _. split; [intros []|].
    intros (c & _ & _ & Hn & _). assert (Hr : (Z.of_nat lo <= v < Z.of_nat hi)%Z) by lia.
    apply Hv in Hr. destruct Hr as (k & -> & Hk). eapply Hn; eauto.
  - eapply bad_iff; [|apply bad_error]. intros ts i rest _. split.
    + intros [-> ->]. eexists. split; [|split; [reflexivity|split; [|reflexivity]]]; [reflexivity|].
      intros k Hk Hin. assert (Hr : (Z.of_nat lo <= v < Z.of_nat hi)%Z) by (apply Hv; eauto). lia.
    + intros (c & -> & -> & _ & ->). auto.
Qed.

(** ** Parts of a reference *)

Lemma digits_no_slash : forall s acc n, digits_val acc s = Some n -> no_slash s.
Proof.
  induction s as [|c s IH]; intros a n H; cbn in *; [intros []|].
  destruct (digit_val c) eqn:E; [|discriminate]. intros [->|Hi]; [discriminate E|].
  eapply IH; eauto.
Qed.

Lemma isize_no_slash : forall t z, RustStd.parse_isize t = Some z -> no_slash t.
Proof.
  intros t z H. destruct t as [|c t]; [discriminate|]. unfold RustStd.parse_isize in H.
  assert (Hd : forall s, (exists neg, match s with
              | [] => None
              | _ => match digits_val 0 s with
                     | Some n => let z := if neg : bool then (- Z.of_N n)%Z else Z.of_N n in
                                 if in_isize z then Some z else None
                     | None => None
                     end
              end = Some z) -> no_slash s).
  { intros [|c' s] [neg Hs]; [discriminate|].
    destruct (digits_val 0 (c' :: s)) eqn:E; [|discriminate]. eapply digits_no_slash; eauto. }
  destruct (Ascii.eqb_spec c "+"%char) as [->|H1].
  { intros [Hi|Hi]; [discriminate|]. revert Hi. apply Hd. exists false. exact H. }
  destruct (Ascii.eqb_spec c "-"%char) as [->|H2].
  { intros [Hi|Hi]; [discriminate|]. revert Hi. apply Hd. exists true. exact H. }
  apply Hd. exists false. exact H.
Qed.

Lemma number_no_slash : forall t k, number_token t k -> no_slash t.
Proof. intros. eapply isize_no_slash; eauto. Qed.

Lemma part_no_slash : forall t k, part_token t k -> no_slash t.
Proof. intros t k []; [intros []|]. eapply number_no_slash; eauto. Qed.

Lemma split_single : forall p, no_slash p -> split_on "/"%char p = [p].
Proof.
  induction p as [|c p IH]; intros H; cbn; auto.
  destruct (Ascii.eqb_spec c "/"%char) as [->|Hc]; [exfalso; apply H; now left|].
  rewrite IH; auto. intros Hi. apply H. now right.
Qed.

Lemma split_cons : forall p t, no_slash p ->
  split_on "/"%char (p ++ slash ++ t) = p :: split_on "/"%char t.
Proof.
  induction p as [|c p IH]; intros t H; [reflexivity|].
  cbn. destruct (Ascii.eqb_spec c "/"%char) as [->|Hc]; [exfalso; apply H; now left|].
  cbn in IH. rewrite IH; auto. intros Hi. apply H. now right.
Qed.

Lemma parts_split : forall t ps, parts_of t ps <-> ps = split_on "/"%char t.
Proof.
  intros t ps. split.
  - intros (Hn & Hf & ->). induction ps as [|p ps IH]; [congruence|].
    inversion Hf; subst. destruct ps as [|q ps]; [now rewrite split_single|].
    change (with_slashes (p :: q :: ps)) with (p ++ slash ++ with_slashes (q :: ps)).
    rewrite split_cons by auto. f_equal. apply IH; auto. discriminate.
  - intros ->. induction t as [|c t (Hn & Hf & Hw)].
    + split; [discriminate|]. split; [|reflexivity]. constructor; auto. intros [].
    + cbn. destruct (Ascii.eqb_spec c "/"%char) as [->|Hc].
      * split; [discriminate|]. split; [constructor; auto; intros []|].
        destruct (split_on "/"%char t) as [|p ps]; [congruence|]. rewrite Hw. reflexivity.
      * destruct (split_on "/"%char t) as [|p ps]; [congruence|]. inversion Hf; subst.
        split; [discriminate|]. split.
        { constructor; auto. intros [->|Hi]; auto. }
        destruct ps; reflexivity.
Qed.

Lemma ref_token_split : forall t r, ref_token t r <->
  match split_on "/"%char t with
  | [a] => exists v, number_token a v /\ r = mkRef v None None
  | [a; b] => exists v vt, number_token a v /\ part_token b vt /\ r = mkRef v vt None
  | [a; b; c] => exists v vt vn, number_token a v /\ part_token b vt /\ part_token c vn /\ r = mkRef v vt vn
  | _ => False
  end.
Proof.
  intros t r. split.
  - intros H. destruct H as [a v Ha|a b v vt Ha Hb|a b c v vt vn Ha Hb Hc].
    + rewrite split_single by (eapply number_no_slash; eauto). eauto.
    + rewrite split_cons by (eapply number_no_slash; eauto).
      rewrite split_single by (eapply part_no_slash; eauto). eauto.
    + rewrite split_cons by (eapply number_no_slash; eauto).
      rewrite split_cons by (eapply part_no_slash; eauto).
      rewrite split_single by (eapply part_no_slash; eauto). eauto 8.
  - intros H. destruct (proj2 (parts_split t _) eq_refl) as (_ & _ & Hw). rewrite Hw. clear Hw.
    destruct (split_on "/"%char t) as [|a [|b [|c [|d ps]]]]; crush; cbn [with_slashes].
    + now constructor.
    + now constructor.
    + now constructor.
Qed.

Lemma number_nil : forall k, ~ number_token [] k.
Proof. intros k H. discriminate H. Qed.

Lemma acc_process_split : forall lo hi p, small hi ->
  acc fuel (process_split false p (lo, hi))
    (fun ts o rest => rest = ts /\ exists k, part_token p k /\ part_in_scope lo hi k /\
                                          o = option_map (local_index lo) k).
Proof.
  intros lo hi p Hs. destruct p as [|c p].
  - cbn. eapply acc_iff; [|apply acc_ret]. intros ts o rest _. unfold r_ret. split.
    + intros [-> ->]. split; auto. exists None. cbn. repeat split. constructor.
    + intros (-> & k & H & _ & ->). inversion H; subst; [auto|]. exfalso. eapply number_nil; eauto.
  - cbn [process_split]. remember (c :: p) as t. assert (t <> []) by (subst; discriminate). clear Heqt.
    destruct (RustStd.parse_isize t) as [z|] eqn:E.
    + pose proof (parse_isize_range _ _ E) as Hz.
      eapply acc_iff; [|eapply acc_bind; [now apply acc_calculate_index|intros ?; run]].
      intros ts o rest _. split.
      * intros Hr. crush. split; auto. exists (Some x1). cbn. repeat split; try lia.
        { now constructor. } all: unfold in_scope in *; lia.
      * intros (-> & k & H1 & H2 & ->). inversion H1; subst; [contradiction|].
        cbn in H2. unfold number_token in *. rewrite E in *. crush.
        exists (local_index lo k0), ts. split; [|auto]. split; auto. eauto.
    + eapply acc_iff; [|apply acc_error]. intros ts o rest _. split; [intros []|].
      intros (_ & k & H1 & _). inversion H1; subst; [contradiction|]. unfold number_token in *. congruence.
Qed.

Lemma bad_process_split : forall lo hi p, small hi ->
  bad fuel (process_split false p (lo, hi))
    (lift (fun ts c rest => rest = ts /\ bad_part lo hi p c)).
Proof.
  intros lo hi p Hs. destruct p as [|c p].
  - cbn. eapply bad_iff; [|apply bad_ret]. intros ts o rest _. split; [intros []|].
    intros (c & _ & _ & Hn & _). contradiction.
  - cbn [process_split]. remember (c :: p) as t. assert (t <> []) by (subst; discriminate). clear Heqt.
    destruct (RustStd.parse_isize t) as [z|] eqn:E.
    + pose proof (parse_isize_range _ _ E) as Hz.
      eapply bad_iff; [|eapply bad_bind; [now apply acc_calculate_index|now apply bad_calculate_index|intros ?; run]].
      intros ts o rest _. split.
      * intros Hr. crush. eexists. split; [|split; [reflexivity|split; [auto|]]]; [|eapply number_out; eauto].
        reflexivity.
      * intros (c' & -> & -> & _ & Hb). inversion Hb; subst; [congruence|].
        rewrite E in *. crush. left. eexists (_, _). split; [reflexivity|]. cbn. auto.
    + eapply bad_iff; [|apply bad_error]. intros ts o rest _. split.
      * intros [-> ->]. eexists. split; [|split; [reflexivity|split; [auto|]]]; [|now apply number_not].
        reflexivity.
      * intros (c' & -> & -> & _ & Hb). inversion Hb; subst; [auto|congruence].
Qed.


(** ** References *)

Definition small_counts (c : counts) : Prop := small (n_v c) /\ small (n_t c) /\ small (n_n c).

Definition v_range (base now : counts) : nat * nat := (n_v base, n_v now).
Definition t_range (base now : counts) : nat * nat := (n_t base, n_t now).
Definition n_range (base now : counts) : nat * nat := (n_n base, n_n now).

Definition parse_ref (base now : counts) : M list_source ObjTypes.error_kind vtn_index :=
  parse_vtn_index false (v_range base now) (t_range base now) (n_range base now).

(** Next part, if any. *)
Definition next_part (lo hi : nat) (ps : list bytes) : reads (option nat * list bytes) :=
  fun ts r rest => rest = ts /\ snd r = tl ps /\
    match ps with
    | [] => fst r = None
    | p :: _ => exists k, part_token p k /\ part_in_scope lo hi k /\ fst r = option_map (local_index lo) k
    end.

Definition bad_next_part (lo hi : nat) (ps : list bytes) : reads complaint :=
  fun ts c rest => rest = ts /\ match ps with [] => False | p :: _ => bad_part lo hi p c end.

Lemma acc_process_next : forall lo hi ps, small hi ->
  acc fuel (process_next false ps (lo, hi)) (next_part lo hi ps).
Proof.
  intros lo hi ps Hs. unfold next_part. destruct ps as [|p ps]; cbn [process_next].
  - eapply acc_iff; [|run]. intros ts [o l] rest _. cbn. split; intros H; crush; auto.
  - eapply acc_iff; [|eapply acc_bind; [now apply acc_process_split|intros ?; run]].
    intros ts [o l] rest _. cbn. split; intros H; crush; eauto 8.
    exists (option_map (local_index lo) x), ts. eauto 8.
Qed.

Lemma bad_process_next : forall lo hi ps, small hi ->
  bad fuel (process_next false ps (lo, hi)) (lift (bad_next_part lo hi ps)).
Proof.
  intros lo hi ps Hs. unfold bad_next_part. destruct ps as [|p ps]; cbn [process_next].
  - eapply bad_iff; [|run]. intros ts b rest _. cbn. split; [intros []|]. intros H; crush.
  - eapply bad_iff; [|eapply bad_bind; [now apply acc_process_split|now apply bad_process_split|intros ?; run]].
    intros ts b rest _. cbn. split; intros H; crush; eauto 8.
Qed.
Hint Resolve acc_process_next bad_process_next : run.

Lemma some_part : forall lo hi p k, part_token p k -> part_in_scope lo hi k ->
  p <> [] -> exists n, k = Some n /\ number_token p n /\ in_scope lo hi n.
Proof. intros lo hi p k [|t n H] Hs Hp; [congruence|]. eauto. Qed.

Lemma acc_parse_ref : forall base now, small_counts now -> acc fuel (parse_ref base now)
  (fun ts i rest => exists t r, ts = t :: rest /\ valid_ref base now t r /\ i = local_ref base r).
Proof.
  intros base now (Hv & Ht & Hn).
  eapply acc_iff; [|unfold parse_ref, parse_vtn_index, v_range, t_range, n_range; run].
  intros ts i rest _. unfold valid_ref. split.
  - intros (t & mid & -> & [o1 l1] & ts1 & H1 & [o2 l2] & ts2 & H2 & [o3 l3] & ts3 & H3 & H).
    exists t. setoid_rewrite ref_token_split. unfold next_part, ref_in_scope in *. cbn [fst snd] in *.
    destruct (split_on "/"%char t) as [|a [|b [|c [|d ps]]]]; crush; cbn in H; crush;
      destruct x as [v|]; cbn in H; crush.
    + match goal with H : part_token a _ |- _ => inversion H; subst end. exists (mkRef v None None). cbn. eauto 10.
    + match goal with H : part_token a _ |- _ => inversion H; subst end. destruct x0 as [vt|]; cbn in H; crush.
      * exists (mkRef v (Some vt) None). cbn. eauto 12.
      * exists (mkRef v None None). cbn. eauto 12.
    + match goal with H : part_token a _ |- _ => inversion H; subst end. exists (mkRef v x1 x0). destruct x1 as [vt|], x0 as [vn|]; cbn in H; crush; cbn; eauto 15.
  - intros (t & r & -> & [Hr Hs] & ->). apply ref_token_split in Hr.
    exists t, rest. split; auto. unfold ref_in_scope, next_part in *. 
    destruct (split_on "/"%char t) as [|a [|b [|c [|d ps]]]]; crush; cbn [ref_v ref_t ref_n] in *.
    + exists (Some (local_index (n_v base) x), []), rest. split.
      { cbn. repeat split; auto. exists (Some x). repeat split; try constructor; cbn; auto; unfold in_scope in *; lia. }
      exists (None, []), rest. split; [cbn; auto|]. exists (None, []), rest. split; [cbn; auto|]. cbn; auto.
    + exists (Some (local_index (n_v base) x), [b]), rest. split.
      { cbn. repeat split; auto. exists (Some x). repeat split; try constructor; cbn; auto; unfold in_scope in *; lia. }
      exists (option_map (local_index (n_t base)) x0, []), rest. split; [cbn; eauto 8|].
      exists (None, []), rest. split; [cbn; auto|]. cbn. destruct x0; cbn; auto.
    + exists (Some (local_index (n_v base) x), [b; c]), rest. split.
      { cbn. repeat split; auto. exists (Some x). repeat split; try constructor; cbn; auto; unfold in_scope in *; lia. }
      exists (option_map (local_index (n_t base)) x0, [c]), rest. split; [cbn; eauto 8|].
      exists (option_map (local_index (n_n base)) x1, []), rest. split; [cbn; eauto 8|].
      cbn. destruct x0, x1; cbn; auto.
Qed.

Lemma part_none : forall p, part_token p None -> p = [].
Proof. intros p H. now inversion H. Qed.

(** What is left of the parts after reading one. *)
Lemma next_part_good : forall lo hi p ps ts o l rest, next_part lo hi (p :: ps) ts (o, l) rest ->
  rest = ts /\ l = ps /\ good_part lo hi p /\ (o = None <-> p = []).
Proof.
  intros lo hi p ps ts o l rest (-> & H2 & k & H3 & H4 & H5). cbn in *. subst. repeat split; auto.
  - exists k. auto.
  - destruct k; [discriminate|]. intros _. now apply part_none.
  - intros ->. inversion H3; subst; [reflexivity|]. exfalso. eapply number_nil; eauto.
Qed.

Lemma good_next_part : forall lo hi p ps ts, good_part lo hi p ->
  exists o, next_part lo hi (p :: ps) ts (o, ps) ts /\ (o = None <-> p = []).
Proof.
  intros lo hi p ps ts (k & H1 & H2). exists (option_map (local_index lo) k).
  assert (H : next_part lo hi (p :: ps) ts (option_map (local_index lo) k, ps) ts).
  { unfold next_part. cbn. eauto 8. }
  split; auto. now apply next_part_good in H.
Qed.

Lemma bad_parse_ref : forall base now, small_counts now -> bad fuel (parse_ref base now)
  (lift (fun ts c rest => match ts with
                          | [] => c = (EndOfFile, msg_end) /\ rest = []
                          | t :: rest' => bad_ref base now t c /\ rest = rest'
                          end)).
Proof.
  intros base now (Hv & Ht & Hn).
  eapply bad_iff; [|unfold parse_ref, parse_vtn_index, v_range, t_range, n_range; run].
  intros ts b rest _. split.
  - intros [H|(t & mid & -> & H)]; [crush; eexists (_, _); split; [reflexivity|auto]|].
    unfold lift. setoid_rewrite and_comm at 2.
    pose proof (proj2 (parts_split t _) eq_refl) as Hp.
    destruct (split_on "/"%char t) as [|a ps]; [destruct Hp; congruence|].
    destruct H as [(c & -> & -> & H)|([o1 l1] & ts1 & H1 & H)].
    { exists c. repeat split; auto. eapply bad_ref_v; eauto. }
    apply next_part_good in H1. destruct H1 as (-> & -> & G1 & E1).
    destruct H as [(c & -> & -> & H)|([o2 l2] & ts2 & H2 & H)].
    { destruct ps as [|q ps]; [destruct H|]. exists c. repeat split; auto. eapply bad_ref_t; eauto. }
    assert (H2' : ts2 = mid /\ l2 = tl ps /\
                  forall q ps', ps = q :: ps' -> good_part (n_t base) (n_t now) q).
    { clear H. destruct ps as [|q ps]; [unfold next_part in H2; crush; repeat split; auto; discriminate|].
      apply next_part_good in H2. crush. repeat split; auto. intros q' ps' E. crush. auto. }
    clear H2. destruct H2' as (-> & -> & G2).
    destruct H as [(c & -> & -> & H)|([o3 l3] & ts3 & H3 & H)].
    { destruct ps as [|q [|r ps]]; try destruct H. exists c. repeat split; auto.
      eapply bad_ref_n; eauto. split; auto. }
    assert (H3' : ts3 = mid /\ l3 = tl (tl ps) /\
                  forall q r ps', ps = q :: r :: ps' -> good_part (n_n base) (n_n now) r).
    { clear H. destruct ps as [|q [|r ps]]; try (unfold next_part in H3; crush; repeat split; auto; discriminate).
      cbn [tl] in H3. apply next_part_good in H3. crush. repeat split; auto. intros q' r' ps' E. crush. auto. }
    clear H3. destruct H3' as (-> & -> & G3).
    assert (Hc : bad_ref base now t (ExpectedVTNIndex, msg_vtn t) ->
      exists c : ObjTypes.error_kind * bytes,
        Fails ExpectedVTNIndex (msg_vtn t) = Fails (fst c) (snd c) /\ mid = mid /\ bad_ref base now t c).
    { intros Hb. eexists (_, _). repeat split. exact Hb. }
    destruct o1 as [v|]; cbn in H.
    + assert (Ha : a <> []) by (intros ->; destruct E1 as [_ E1]; specialize (E1 eq_refl); discriminate).
      destruct ps as [|q [|r [|s ps]]]; cbn in H; crush; try (destruct o2, o3; crush; fail).
      apply Hc. eapply bad_ref_many; eauto.
    + destruct H as [-> ->]. apply Hc. apply bad_ref_empty with (ps := ps); auto.
      now rewrite (proj1 E1 eq_refl) in Hp.
  - intros (c & -> & H). destruct ts as [|t ts].
    { destruct H as [-> ->]. left. eexists (_, _). split; [reflexivity|auto]. }
    destruct H as [H ->]. right. exists t, ts. split; auto.
    destruct H as [p ps c Hp H|p q ps c Hp G1 H|p q r ps c Hp G1 G2 H|ps Hp G2 G3|p q r s ps Hp G1 G2 G3];
      apply parts_split in Hp; rewrite <- Hp.
    + left. exists c. split; auto. split; auto.
    + right. destruct (good_next_part _ _ _ (q :: ps) ts G1) as (o & Ho & _). exists (o, q :: ps), ts. split; auto.
      left. exists c. split; auto. split; auto.
    + right. destruct (good_next_part _ _ _ (q :: r :: ps) ts G1) as (o & Ho & _). exists (o, q :: r :: ps), ts. split; auto.
      right. destruct (good_next_part _ _ _ (r :: ps) ts G2) as (o' & Ho' & _). exists (o', r :: ps), ts. split; auto.
      left. exists c. split; auto. split; auto.
    + right. assert (G1 : good_part (n_v base) (n_v now) []) by (exists None; split; [constructor|exact I]).
      destruct (good_next_part _ _ _ ps ts G1) as (o & Ho & E). exists (o, ps), ts. split; auto.
      rewrite (proj2 E eq_refl). right.
      assert (H2 : exists o2, next_part (n_t base) (n_t now) ps ts (o2, tl ps) ts).
      { destruct ps as [|q ps]; [exists None; unfold next_part; cbn; auto|].
        destruct (good_next_part _ _ _ ps ts (G2 _ _ eq_refl)) as (o' & Ho' & _). eauto. }
      destruct H2 as [o2 H2]. exists (o2, tl ps), ts. split; auto. right.
      assert (H3 : exists o3, next_part (n_n base) (n_n now) (tl ps) ts (o3, tl (tl ps)) ts).
      { destruct ps as [|q [|r ps]]; try (exists None; unfold next_part; cbn; auto; fail).
        destruct (good_next_part _ _ _ ps ts (G3 _ _ _ eq_refl)) as (o' & Ho' & _). eauto. }
      destruct H3 as [o3 H3]. exists (o3, tl (tl ps)), ts. split; auto. cbn. auto.
    + right. destruct (good_next_part _ _ _ (q :: r :: s :: ps) ts G1) as (o & Ho & _).
      exists (o, q :: r :: s :: ps), ts. split; auto.
      right. destruct (good_next_part _ _ _ (r :: s :: ps) ts G2) as (o' & Ho' & _). exists (o', r :: s :: ps), ts. split; auto.
      right. destruct (good_next_part _ _ _ (s :: ps) ts G3) as (o'' & Ho'' & _). exists (o'', s :: ps), ts. split; auto.
      rewrite orb_true_r. auto.
Qed.
Hint Resolve acc_parse_ref bad_parse_ref : run.

(** A computation either succeeds or fails, in one way. *)
Lemma acc_bad_excl : forall K A (m : M list_source K A) R F ts a rest b rest',
  acc fuel m R -> bad fuel m F -> length ts < fuel -> R ts a rest -> F ts b rest' -> False.
Proof.
  intros K A m R F ts a rest b rest' Ha Hb Hl HR HF.
  apply (Ha ts Hl) with (l := 0) in HR. apply (Hb ts Hl 0) in HF.
  destruct HR as [l1 E1], HF as [l2 E2]. rewrite E1 in E2. destruct b; discriminate.
Qed.

Lemma acc_det : forall K A (m : M list_source K A) R ts a rest a' rest',
  acc fuel m R -> length ts < fuel -> R ts a rest -> R ts a' rest' -> a = a' /\ rest = rest'.
Proof.
  intros K A m R ts a rest a' rest' Ha Hl HR HR'.
  apply (Ha ts Hl) with (l := 0) in HR. apply (Ha ts Hl) with (l := 0) in HR'.
  destruct HR as [l1 E1], HR' as [l2 E2]. rewrite E1 in E2. now inversion E2.
Qed.

Lemma number_dec : forall base now t,
  (exists k, number_token t k /\ in_scope base now k) \/ (exists c, bad_number base now t c).
Proof.
  intros base now t. destruct (RustStd.parse_isize t) as [z|] eqn:E; [|right; eexists; constructor; eauto].
  destruct (Z_lt_dec (Z.of_nat base) z) as [H1|H1]; [destruct (Z_le_dec z (Z.of_nat now)) as [H2|H2]|].
  - left. exists (Z.to_nat z). unfold number_token, in_scope. rewrite E. split; [f_equal|]; lia.
  - right. eexists. eapply number_out; eauto. unfold in_scope. lia.
  - right. eexists. eapply number_out; eauto. unfold in_scope. lia.
Qed.

Lemma part_dec : forall base now p, good_part base now p \/ (exists c, bad_part base now p c).
Proof.
  intros base now [|x p]; [left; exists None; split; [constructor|exact I]|].
  destruct (number_dec base now (x :: p)) as [(k & H1 & H2)|[c H]].
  - left. exists (Some k). split; [now constructor|auto].
  - right. exists c. split; [discriminate|auto].
Qed.

Lemma good_part_some : forall lo hi p, good_part lo hi p -> p <> [] ->
  exists k, number_token p k /\ in_scope lo hi k.
Proof. intros lo hi p (k & H1 & H2) Hp. destruct H1; [congruence|]. eauto. Qed.

Lemma ref_dec : forall base now t, (exists r, valid_ref base now t r) \/ (exists c, bad_ref base now t c).
Proof.
  intros base now t. unfold valid_ref. setoid_rewrite ref_token_split.
  pose proof (proj2 (parts_split t _) eq_refl) as Hp.
  destruct (split_on "/"%char t) as [|a ps]; [destruct Hp; congruence|].
  destruct (part_dec (n_v base) (n_v now) a) as [G1|[c B1]]; [|right; exists c; eapply bad_ref_v; eauto].
  assert (Ha : a = [] \/ a <> []) by (destruct a; [left|right]; congruence).
  destruct ps as [|b ps].
  - destruct Ha as [->|Ha].
    + right. eexists. eapply bad_ref_empty; eauto; discriminate.
    + destruct (good_part_some _ _ _ G1 Ha) as (k & H1 & H2). left. exists (mkRef k None None).
      unfold ref_in_scope. cbn. eauto 12.
  - destruct (part_dec (n_t base) (n_t now) b) as [G2|[c B2]]; [|right; exists c; eapply bad_ref_t; eauto].
    destruct ps as [|c ps].
    + destruct Ha as [->|Ha].
      * right. eexists. eapply bad_ref_empty; eauto; try discriminate. intros q ps' E. crush. auto.
      * destruct (good_part_some _ _ _ G1 Ha) as (k & H1 & H2). destruct G2 as (k2 & H3 & H4).
        left. exists (mkRef k k2 None). unfold ref_in_scope. cbn. eauto 14.
    + destruct (part_dec (n_n base) (n_n now) c) as [G3|[e B3]]; [|right; exists e; eapply bad_ref_n; eauto].
      destruct ps as [|d ps].
      * destruct Ha as [->|Ha].
        { right. eexists. eapply bad_ref_empty; eauto; intros * E; crush; auto. }
        destruct (good_part_some _ _ _ G1 Ha) as (k & H1 & H2). destruct G2 as (k2 & H3 & H4).
        destruct G3 as (k3 & H5 & H6). left. exists (mkRef k k2 k3). unfold ref_in_scope. cbn. eauto 16.
      * right. eexists. eapply bad_ref_many; eauto.
Qed.

Lemma ref_excl : forall base now t r c, valid_ref base now t r -> bad_ref base now t c -> False.
Proof.
  intros base now t r c [Hr (S1 & S2 & S3)] Hb. apply ref_token_split in Hr.
  assert (Hn : forall lo hi p k c, number_token p k -> in_scope lo hi k -> ~ bad_number lo hi p c).
  { unfold number_token. intros lo hi p k c' H1 H2 H3. inversion H3; subst; rewrite H1 in *; [discriminate|].
    crush. eapply H0; eauto. }
  assert (Hq : forall lo hi p k c, part_token p k -> part_in_scope lo hi k -> ~ bad_part lo hi p c).
  { intros lo hi p k c' H1 H2 [H3 H4]. inversion H1; subst; [congruence|]. eapply Hn; eauto. }
  destruct Hb as [p ps c Hp H|p q ps c Hp G1 H|p q r' ps c Hp G1 G2 H|ps Hp G2 G3|p q r' s ps Hp G1 G2 G3];
    apply parts_split in Hp; rewrite <- Hp in Hr.
  - destruct H as [H1 H2]. destruct ps as [|b [|d [|e ps]]]; crush; cbn in *; eapply Hn; eauto.
  - destruct ps as [|d [|e ps]]; crush; cbn in *;
      match goal with H : bad_part _ _ ?q _, H' : part_token ?q _ |- _ => eapply Hq; [exact H'| |exact H]; auto end.
  - destruct ps as [|e ps]; crush; cbn in *;
      match goal with H : bad_part _ _ ?q _, H' : part_token ?q _ |- _ => eapply Hq; [exact H'| |exact H]; auto end.
  - destruct ps as [|b [|d [|e ps]]]; crush; eapply number_nil; eauto.
  - exact Hr.
Qed.

Lemma ref_iff : forall base now t, (exists c, bad_ref base now t c) <-> (forall r, ~ valid_ref base now t r).
Proof.
  intros base now t. split.
  - intros [c H] r Hr. eapply ref_excl; eauto.
  - intros H. destruct (ref_dec base now t) as [[r Hr]|Hb]; auto. exfalso. eapply H; eauto.
Qed.

Lemma ref_det : forall base now t r r', valid_ref base now t r -> valid_ref base now t r' -> r = r'.
Proof.
  intros base now t r r' [H _] [H' _]. apply ref_token_split in H. apply ref_token_split in H'.
  assert (Hq : forall p k k', number_token p k -> number_token p k' -> k = k').
  { intros p k k' H1 H2. unfold number_token in *. rewrite H1 in H2. crush. lia. }
  assert (Hp : forall p k k', part_token p k -> part_token p k' -> k = k').
  { intros p k k' Hk1 Hk2; inversion Hk1; inversion Hk2; subst; auto; try discriminate;
      try (exfalso; eapply number_nil; eauto; fail).
    f_equal. eapply Hq; eauto. }
  destruct (split_on "/"%char t) as [|a [|b [|d [|e ps]]]]; crush; f_equal; eauto.
Qed.

(** ** Lists of references *)

Definition refs_round (base now : counts) (a : nat * list vtn_index)
  : reads (step (nat * list vtn_index) (nat * list vtn_index)) :=
  fun ts s rest =>
    match ts with
    | [] => s = Break a /\ rest = []
    | t :: ts' =>
        rest = ts' /\
        ((exists r, valid_ref base now t r /\ s = Continue (fst a + 1, snd a ++ [local_ref base r])) \/
         ((forall r, ~ valid_ref base now t r) /\ s = Break a))
    end.

Lemma refs_rounds : forall base now ts n is r rest,
  loops (refs_round base now) (n, is) ts r rest <->
  exists rs, reads_refs base now ts rs rest /\ r = (n + length rs, is ++ map (local_ref base) rs).
Proof.
  intros base now ts n is r rest. split.
  - intros H. remember (n, is) as a eqn:Ea. revert n is Ea.
    induction H as [a ts b rest H|a ts a' mid b rest H HL IH]; intros n is ->; destruct ts as [|t ts]; cbn in H; crush.
    + exists []. cbn. rewrite Nat.add_0_r, app_nil_r. split; auto. constructor.
    + exists []. cbn. rewrite Nat.add_0_r, app_nil_r. split; auto. now constructor.
    + edestruct IH as (rs & Hn & ->); [reflexivity|]. exists (x :: rs). split; [econstructor; eauto|].
      cbn. f_equal; [lia|]. now rewrite <- app_assoc.
  - intros (rs & H & ->). revert n is.
    induction H as [|t rest H|t r ts rs rest H H' IH]; intros n is; cbn.
    + rewrite Nat.add_0_r, app_nil_r. apply loops_break. cbn; auto.
    + rewrite Nat.add_0_r, app_nil_r. apply loops_break. cbn; auto.
    + eapply loops_continue; [cbn; split; [reflexivity|left; eauto]|].
      cbn. replace (n + S (length rs)) with (n + 1 + length rs) by lia.
      replace (is ++ local_ref base r :: map (local_ref base) rs)
        with ((is ++ [local_ref base r]) ++ map (local_ref base) rs) by (now rewrite <- app_assoc).
      apply IH.
Qed.

Lemma progressive_refs : forall base now, progressive fuel (refs_round base now).
Proof. intros base now a ts a' mid _ H. destruct ts; cbn in H; crush. cbn. lia. Qed.

Lemma cons_parse_ref : forall base now, cons_if fuel always never (parse_ref base now).
Proof. intros. eapply cons_weaken with (P := always); [auto| |apply cons_parse_vtn_index]. intros ? []. Qed.

Lemma acc_refs_body : forall base now a, small_counts now -> acc fuel ((fun '(indices_parsed, vtn_indices) =>
    r <- catch (parse_ref base now) ;;
    match r with
    | inl vtn_index => ret (Continue (indices_parsed + 1, vtn_indices ++ [vtn_index]))
    | inr _ => ret (Break (indices_parsed, vtn_indices))
    end) a) (refs_round base now a).
Proof.
  intros base now [n is] Hs.
  eapply acc_iff; [|eapply acc_catch; [now apply acc_parse_ref|now apply bad_parse_ref|apply cons_parse_ref
                   |intros ?; apply acc_ret|apply acc_ret]].
  intros ts s rest _. unfold refs_round, r_catch. split.
  - intros H. crush.
    + eauto 8.
    + destruct ts as [|t ts]; crush; auto. split; auto. right. split; auto. apply ref_iff. eauto.
  - intros H. destruct ts as [|t ts]; crush.
    + right. eexists _, _, []. split; [|eauto]. eexists (_, _). split; [|cbn; eauto]. reflexivity.
    + left. build.
    + right. apply ref_iff in H0. destruct H0 as [c Hc]. exists (fst c), (snd c), ts. split; auto.
      exists c. auto.
Qed.

Lemma acc_parse_refs : forall base now is, small_counts now ->
  acc fuel (parse_vtn_indices false fuel is (v_range base now) (t_range base now) (n_range base now))
    (fun ts r rest => exists rs, reads_refs base now ts rs rest /\
                                 r = (length rs, is ++ map (local_ref base) rs)).
Proof.
  intros base now is Hs. eapply acc_iff; [|apply acc_loop; [intros a; now apply acc_refs_body|apply progressive_refs]].
  intros ts r rest _. apply refs_rounds.
Qed.

Lemma bad_parse_refs : forall base now is, small_counts now ->
  bad fuel (parse_vtn_indices false fuel is (v_range base now) (t_range base now) (n_range base now)) r_none.
Proof.
  intros base now is Hs. eapply bad_iff; [|eapply bad_loop; [intros a; now apply acc_refs_body| |apply progressive_refs]].
  2: { intros [n ns]. instantiate (1 := fun _ => r_none).
       eapply bad_iff; [|eapply bad_catch; [now apply acc_parse_ref|now apply bad_parse_ref|apply cons_parse_ref
                   |intros ?; apply bad_ret|apply bad_ret]].
       intros ts b rest _. split; [|intros []]. intros [(p & -> & H)|H]; crush. discriminate. }
  intros ts r rest _. split; [|intros []]. intros H. induction H; auto.
Qed.
Hint Resolve acc_parse_refs bad_parse_refs : run.
End Obj.

Ltac inv_fails H1 H2 :=
  inversion H2; subst; try discriminate H1;
  try (exfalso; inversion H1; subst;
       match goal with H : ~ In _ keywords |- _ => apply H; unfold keywords; cbn; auto 20 end).
Ltac now_bad := left; unfold lift; eauto.
Ltac later := right; do 2 eexists; split; [solve [eauto]|].
Ltac build :=
  repeat first
    [ solve [eauto 6]
    | match goal with
      | |- exists _ : unit, _ => exists tt
      | |- exists _, _ => eexists
      | |- _ /\ _ => split
      end ].

Global Hint Resolve acc_next_string bad_next_string acc_expect_tag bad_expect_tag
  acc_parse_f64 bad_parse_f64 acc_try_once bad_try_once acc_skip_zero bad_skip_zero
  acc_names_until_newline bad_names_until_newline acc_parse_ref bad_parse_ref
  acc_parse_refs bad_parse_refs : run.
