(** Runs over the token list: every computation consumes a prefix of the
    tokens, keeps the line count in step with it, reports errors on the current
    line, and (with fuel for one round per token) never runs out of fuel. *)
From Verif Require Import ObjModel MtlModel SourceProofs.
Local Open Scope list_scope.

Definition count_nl (ts : list bytes) : nat :=
  length (filter (fun t => bytes_eqb t nl) ts).

Arguments count_nl : simpl never.

Lemma count_nl_app : forall a b, count_nl (a ++ b) = count_nl a + count_nl b.
Proof. intros. unfold count_nl. now rewrite filter_app, app_length. Qed.

Lemma count_nl_cons : forall t ts,
  count_nl (t :: ts) = (if bytes_eqb t nl then 1 else 0) + count_nl ts.
Proof. intros. unfold count_nl. cbn [filter]. destruct (bytes_eqb t nl); reflexivity. Qed.

(** What the end of a run from line [l] with tokens [ts] looks like. *)
Definition consumed {K A} (l : nat) (ts : list bytes) (progress : A -> Prop)
    (r : outcome (parse_error K) A * parser list_source) : Prop :=
  exists pre,
    ts = pre ++ (lexer_state (snd r) : list bytes) /\
    line_number (snd r) = l + count_nl pre /\
    match fst r with
    | Ok a => progress a -> pre <> []
    | Err e => err_line_number e = line_number (snd r)
    | Panic _ => True
    | Diverge => False
    end.

Section Consume.
Context (fuel : nat).

Definition cons_if {K A} (P : list bytes -> Prop) (progress : A -> Prop)
    (m : M list_source K A) : Prop :=
  forall l ts, length ts < fuel -> P ts -> consumed l ts progress (m (list_parser l ts)).

Definition always {A} : A -> Prop := fun _ => True.
Definition never {A} : A -> Prop := fun _ => False.

Local Notation consumes := (cons_if always never).
Local Notation advances := (cons_if always always).

Lemma cons_weaken : forall K A (P P' : list bytes -> Prop) (C C' : A -> Prop) (m : M list_source K A),
  (forall ts, P' ts -> P ts) -> (forall a, C' a -> C a) -> cons_if P C m -> cons_if P' C' m.
Proof.
  intros K A P P' C C' m HP HC H l ts Hl Ht.
  destruct (H l ts Hl (HP _ Ht)) as (pre & H1 & H2 & H3).
  exists pre. repeat split; auto. destruct (fst (m (list_parser l ts))); auto.
Qed.

Lemma advances_consumes : forall K A (m : M list_source K A), advances m -> consumes m.
Proof. intros K A m. apply cons_weaken; unfold always, never; tauto. Qed.

Lemma cons_any : forall K A P (m : M list_source K A), consumes m -> cons_if P never m.
Proof. intros K A P m. apply cons_weaken; unfold always, never; tauto. Qed.

Lemma cons_ret : forall K A P (a : A), cons_if (K := K) P never (ret a).
Proof.
  intros K A P a l ts Hl _. exists []. cbn. repeat split; auto; unfold count_nl; cbn; lia.
Qed.

Lemma cons_ret_not : forall K A P (C : A -> Prop) (a : A), ~ C a -> cons_if (K := K) P C (ret a).
Proof.
  intros K A P C a Ha l ts Hl _. exists []. cbn. repeat split; auto; try tauto; unfold count_nl; cbn; lia.
Qed.

Lemma cons_panics : forall K A P C x, cons_if (K := K) (A := A) P C (panics x).
Proof.
  intros K A P C a l ts Hl _. exists []. cbn. repeat split; auto; unfold count_nl; cbn; lia.
Qed.

Lemma cons_error : forall K A P C (k : K) msg, cons_if (A := A) P C (error k msg).
Proof.
  intros K A P C k msg l ts Hl _. exists []. cbn. repeat split; auto; unfold count_nl; cbn; lia.
Qed.

Lemma consumed_app : forall K A l pre ts (C C' : A -> Prop)
    (r : outcome (parse_error K) A * parser list_source),
  consumed (l + count_nl pre) ts C r -> (forall a, C' a -> pre <> [] \/ C a) ->
  consumed l (pre ++ ts) C' r.
Proof.
  intros K A l pre ts C C' r (pre' & H1 & H2 & H3) HC.
  exists (pre ++ pre'). rewrite <- app_assoc. split; [congruence|].
  split; [rewrite H2, count_nl_app; lia|].
  destruct (fst r); auto. intros Ha Hn. apply app_eq_nil in Hn. destruct Hn; subst.
  destruct (HC _ Ha) as [H|H]; [congruence|now apply H3].
Qed.

(** General sequencing: the second part may use that the first made progress. *)
Lemma cons_bind : forall K A B P (C1 : A -> Prop) (C2 : B -> Prop) (m : M list_source K A) f,
  cons_if P C1 m ->
  (forall a, (C1 a /\ consumes (f a)) \/ cons_if always C2 (f a)) ->
  cons_if P C2 (bind m f).
Proof.
  intros K A B P C1 C2 m f Hm Hf l ts Hl Hp.
  destruct (Hm l ts Hl Hp) as (pre & H1 & H2 & H3). unfold bind.
  destruct (m (list_parser l ts)) as [o [l' ts']]; cbn in *.
  destruct o as [a|e|x|]; try (exists pre; cbn; auto; fail); try contradiction.
  subst ts l'. rewrite app_length in Hl.
  destruct (Hf a) as [[Hc Hfa]|Hfa]; eapply consumed_app;
    try (apply Hfa; [lia|exact I]); auto.
Qed.

Lemma cons_bind_first : forall K A B P (C : B -> Prop) (m : M list_source K A) f,
  cons_if P always m -> (forall a, consumes (f a)) -> cons_if P C (bind m f).
Proof. intros. eapply cons_bind; eauto. intros; left; split; unfold always; auto. Qed.

Lemma cons_bind_second : forall K A B P (C : B -> Prop) (m : M list_source K A) f,
  cons_if P never m -> (forall a, cons_if always C (f a)) -> cons_if P C (bind m f).
Proof. intros. eapply cons_bind; eauto. Qed.

Lemma cons_peek_bind : forall K B P (C : B -> Prop) (f : option bytes -> M list_source K B),
  (forall t, cons_if (fun ts => P ts /\ hd_error ts = t) C (f t)) -> cons_if P C (bind peek f).
Proof. intros K B P C f H l ts Hl Hp. unfold bind, peek; cbn. now apply H. Qed.

Lemma cons_peek : forall K P, cons_if (K := K) P never peek.
Proof.
  intros K P l ts Hl _. exists []. cbn. repeat split; auto; unfold count_nl; cbn; lia.
Qed.

(** [next] makes progress when it returns a token. *)
Lemma cons_next : forall K P, cons_if (K := K) P (fun t => t <> None) next.
Proof.
  intros K P l [|t ts] Hl _; unfold next; cbn.
  - exists []. cbn. repeat split; auto; unfold count_nl; cbn; lia.
  - exists [t]. cbn. repeat split; auto; try discriminate.
    rewrite count_nl_cons. unfold count_nl; cbn. destruct (bytes_eqb t nl); lia.
Qed.

(** Sequencing after [next]. *)
Lemma cons_next_bind : forall K B P (C : B -> Prop) (f : option bytes -> M list_source K B),
  (forall t, consumes (f (Some t))) -> cons_if always C (f None) -> cons_if P C (bind next f).
Proof.
  intros K B P C f Hs Hn. eapply cons_bind; [apply cons_next|].
  intros [t|]; [left|right]; auto. split; auto. discriminate.
Qed.

Lemma cons_advance : forall K P, cons_if (K := K) P never advance.
Proof. intros. apply cons_next_bind; intros; apply cons_ret. Qed.

(** [advance] at a known token makes progress. *)
Lemma cons_advance_at : forall K t, cons_if (K := K) (fun ts => hd_error ts = Some t) always advance.
Proof.
  intros K t l [|t' ts] Hl Ht; [discriminate|]. inversion Ht; subst.
  unfold advance, bind, next; cbn.
  exists [t]. cbn. repeat split; auto; try discriminate.
  rewrite count_nl_cons. unfold count_nl; cbn. destruct (bytes_eqb t nl); lia.
Qed.

Lemma cons_catch : forall K A P (m : M list_source K A), cons_if P always m ->
  cons_if P (fun r => match r with inl _ => True | inr _ => False end) (catch m).
Proof.
  intros K A P m Hm l ts Hl Hp. destruct (Hm l ts Hl Hp) as (pre & H1 & H2 & H3).
  unfold catch. destruct (m (list_parser l ts)) as [o p']; cbn in *.
  exists pre. destruct o; cbn; repeat split; auto; tauto.
Qed.

Lemma cons_index : forall K A P (v : list A) i, cons_if (K := K) P never (index v i).
Proof. intros. unfold index. destruct (nth_error v i); [apply cons_ret|apply cons_panics]. Qed.

Lemma cons_len_minus : forall K A P dbg (v : list A) n, cons_if (K := K) P never (len_minus dbg v n).
Proof. intros. unfold len_minus. destruct (n <=? length v); [apply cons_ret|apply cons_panics]. Qed.

Lemma cons_isize_sub : forall K P dbg a b, cons_if (K := K) P never (isize_sub dbg a b).
Proof.
  intros. unfold isize_sub. destruct (in_isize (a - b)); [apply cons_ret|].
  destruct dbg; [apply cons_panics|apply cons_ret].
Qed.

Lemma cons_debug_assert : forall K P dbg b, cons_if (K := K) P never (debug_assert dbg b).
Proof. intros. unfold debug_assert. destruct (dbg && negb b); [apply cons_panics|apply cons_ret]. Qed.

Lemma cons_for_each : forall K A X (xs : list X) (body : A -> X -> M list_source K A) a,
  (forall a x, consumes (body a x)) -> consumes (for_each xs body a).
Proof.
  intros K A X xs body a Hb. revert a.
  induction xs as [|x xs IH]; intros a; cbn.
  - apply cons_ret.
  - apply cons_bind_second; auto.
Qed.

(** A loop whose every further round was paid for by a token. *)
Definition is_continue {A B} (r : step A B) : Prop :=
  match r with Continue _ => True | Break _ => False end.

Lemma cons_loop_n : forall K A B (body : A -> M list_source K (step A B)),
  (forall a, cons_if always is_continue (body a)) ->
  forall n a l ts, length ts < n -> length ts < fuel ->
    consumed l ts never (loop n body a (list_parser l ts)).
Proof.
  intros K A B body Hb. induction n as [|n IH]; intros a l ts Hn Hl; [lia|].
  cbn [loop]. unfold bind.
  destruct (Hb a l ts Hl I) as (pre & H1 & H2 & H3).
  destruct (body a (list_parser l ts)) as [o [l' ts']]; cbn in *.
  destruct o as [[a'|b]|e|x|]; try (exists pre; cbn; auto; fail); try contradiction.
  assert (Hpre : pre <> []) by (apply H3; exact I).
    assert (Hlen : length ts' < n /\ length ts' < fuel).
    { rewrite H1, app_length in Hn, Hl. destruct pre; [congruence|]. cbn in Hn. lia. }
    subst ts l'. eapply consumed_app; [apply IH; tauto|auto].
Qed.

Lemma cons_loop : forall K A B P (body : A -> M list_source K (step A B)) a,
  (forall a, cons_if always is_continue (body a)) -> cons_if P never (loop fuel body a).
Proof. intros K A B P body a Hb l ts Hl _. apply cons_loop_n; auto. Qed.

(** A loop whose first round must make progress. *)
Lemma cons_loop_first : forall K A B P (body : A -> M list_source K (step A B)) a,
  (forall a, cons_if always is_continue (body a)) ->
  cons_if P always (body a) ->
  cons_if P always (loop fuel body a).
Proof.
  intros K A B P body a Hb H1 l ts Hl Hp.
  destruct fuel as [|n] eqn:E; [lia|]. cbn [loop]. unfold bind.
  destruct (H1 l ts) as (pre & J1 & J2 & J3); auto; [rewrite E; auto|].
  destruct (body a (list_parser l ts)) as [o [l' ts']]; cbn in *.
  destruct o as [[a'|b]|e|x|]; try (exists pre; cbn; auto; fail); try contradiction.
  assert (Hpre : pre <> []) by (apply J3; exact I).
  assert (Hlen : length ts' < n /\ length ts' < fuel).
  { rewrite J1, app_length in Hl. destruct pre; [congruence|]. cbn in Hl. lia. }
  subst ts l'. eapply consumed_app; [apply (cons_loop_n _ _ _ body Hb); try tauto|auto].
Qed.

Create HintDb cons.

Ltac cons_walk :=
  repeat (cbn zeta; first
    [ solve [auto with cons]
    | apply cons_ret | apply cons_error | apply cons_peek | apply cons_panics | apply cons_index
    | apply cons_len_minus | apply cons_isize_sub | apply cons_debug_assert | apply cons_advance
    | apply cons_for_each; intros ? ?
    | apply cons_next_bind; [intros ?|]
    | apply cons_bind_second; [|intros ?]
    | match goal with
      | |- consumes (match ?x with _ => _ end) => destruct x
      | |- cons_if _ _ (match ?x with _ => _ end) => destruct x
      end ]).

Lemma cons_skip_zero : forall K P, cons_if (K := K) P never (skip_zero_or_more_newlines fuel).
Proof.
  intros. unfold skip_zero_or_more_newlines. apply cons_loop. intros _.
  apply cons_peek_bind. intros [t|]; cbn.
  - destruct (bytes_eqb t nl).
    + apply cons_bind_first; [|intros; apply cons_ret].
      eapply cons_weaken; [| |apply (cons_advance_at _ t)]; tauto.
    + apply cons_ret_not. tauto.
  - apply cons_ret_not. tauto.
Qed.
Hint Resolve cons_skip_zero : cons.

(** ** src/obj.rs *)

Lemma cons_next_string : forall P, cons_if P always ObjModel.next_string.
Proof.
  intros. unfold ObjModel.next_string. apply cons_next_bind; intros; [apply cons_ret|apply cons_error].
Qed.

Lemma cons_expect_tag : forall P tag, cons_if P always (ObjModel.expect_tag tag).
Proof.
  intros. unfold ObjModel.expect_tag. apply cons_next_bind; intros; [|apply cons_error].
  cons_walk.
Qed.

(** Anything that starts by consuming a token. *)
Ltac by_tag := apply cons_bind_first; [solve [auto with cons]|intros ?].

Lemma cons_of_always : forall K A P (C : A -> Prop) (m : M list_source K A),
  cons_if P always m -> cons_if P C m.
Proof. intros K A P C m. apply cons_weaken; unfold always; auto. Qed.

Hint Resolve cons_next_string cons_expect_tag : cons.
Hint Extern 5 (cons_if _ never _) => (apply cons_of_always; solve [auto with cons]) : cons.

Lemma cons_parse_f64 : forall P, cons_if P always ObjModel.parse_f64.
Proof. intros. unfold ObjModel.parse_f64. by_tag. cons_walk. Qed.
Lemma cons_expected_integer : forall A P C st, cons_if (A := A) P C (error_expected_integer st).
Proof. intros. apply cons_error. Qed.
Hint Resolve cons_parse_f64 cons_expected_integer : cons.
Lemma cons_parse_isize : forall P, cons_if P always ObjModel.parse_isize.
Proof. intros. unfold ObjModel.parse_isize. by_tag. cons_walk. Qed.
Lemma cons_try_once : forall T P (f : bytes -> option T), cons_if P never (try_once f).
Proof. intros. unfold try_once. cons_walk. Qed.
Hint Resolve cons_parse_isize cons_try_once : cons.
Lemma cons_parse_vertex : forall P, cons_if P always parse_vertex.
Proof. intros. unfold parse_vertex. by_tag. cons_walk. Qed.
Lemma cons_parse_texture_vertex : forall P, cons_if P always parse_texture_vertex.
Proof. intros. unfold parse_texture_vertex. by_tag. cons_walk. Qed.
Lemma cons_parse_normal_vertex : forall P, cons_if P always parse_normal_vertex.
Proof. intros. unfold parse_normal_vertex. by_tag. cons_walk. Qed.
Lemma cons_skip_one : forall P, cons_if P always (skip_one_or_more_newlines fuel).
Proof. intros. unfold skip_one_or_more_newlines. by_tag. cons_walk. Qed.
Lemma cons_calculate_index : forall dbg P r z, cons_if P never (calculate_index dbg r z).
Proof. intros dbg P [lo hi] z. unfold calculate_index. cons_walk. Qed.
Hint Resolve cons_parse_vertex cons_parse_texture_vertex cons_parse_normal_vertex cons_skip_one
  cons_calculate_index : cons.
Lemma cons_process_split : forall dbg P s r, cons_if P never (process_split dbg s r).
Proof. intros. unfold process_split. cons_walk. Qed.
Hint Resolve cons_process_split : cons.
Lemma cons_process_next : forall dbg P s r, cons_if P never (process_next dbg s r).
Proof. intros. unfold process_next. cons_walk. Qed.
Hint Resolve cons_process_next : cons.
Lemma cons_parse_vtn_index : forall dbg P a b c, cons_if P always (parse_vtn_index dbg a b c).
Proof. intros. unfold parse_vtn_index. by_tag. cons_walk. Qed.
Hint Resolve cons_parse_vtn_index : cons.
Lemma cons_parse_vtn_indices : forall dbg P v a b c,
  cons_if P never (parse_vtn_indices dbg fuel v a b c).
Proof.
  intros. unfold parse_vtn_indices. apply cons_loop. intros [n vs].
  eapply cons_bind; [apply cons_catch; apply cons_parse_vtn_index|].
  intros [i|e]; [left|right].
  - split; auto. apply cons_ret.
  - apply cons_ret_not. tauto.
Qed.
Hint Resolve cons_parse_vtn_indices : cons.
Lemma cons_verify : forall P v, cons_if P never (verify_vtn_indices v).
Proof. intros. apply cons_any. unfold verify_vtn_indices. cons_walk. Qed.
Lemma cons_triangulate : forall dbg P es v, cons_if P never (triangulate dbg es v).
Proof.
  intros. apply cons_any. unfold triangulate. repeat (apply cons_bind_second; [|intros ?]); cons_walk.
Qed.
Hint Resolve cons_verify cons_triangulate : cons.
Lemma cons_parse_point : forall dbg P es a, cons_if P always (parse_point dbg fuel es a).
Proof.
  intros. unfold parse_point. by_tag. do 2 (apply cons_bind_second; [auto with cons|intros ?]).
  apply cons_loop. intros [n vs]. apply cons_next_bind.
  - intros t. cons_walk.
  - apply cons_ret_not. tauto.
Qed.
Lemma cons_parse_line : forall dbg P es a b c, cons_if P always (parse_line dbg fuel es a b c).
Proof.
  intros. unfold parse_line. by_tag. cons_walk.
Qed.
Lemma cons_parse_face : forall dbg P es a b c, cons_if P always (parse_face dbg fuel es a b c).
Proof.
  intros. unfold parse_face. by_tag. cons_walk.
Qed.
Hint Resolve cons_parse_point cons_parse_line cons_parse_face : cons.
Lemma cons_parse_elements : forall dbg P es a b c,
  cons_if P always (parse_elements dbg fuel es a b c).
Proof. intros. unfold parse_elements. apply cons_peek_bind. intros t. cons_walk. Qed.
Lemma cons_names : forall P ns, cons_if P never (names_until_newline fuel ns).
Proof.
  intros. unfold names_until_newline. apply cons_loop. intros [n vs]. apply cons_next_bind.
  - intros t. cons_walk.
  - apply cons_ret_not. tauto.
Qed.
Hint Resolve cons_parse_elements cons_names : cons.
Lemma cons_parse_groups : forall P gs, cons_if P always (parse_groups fuel gs).
Proof. intros. unfold parse_groups. by_tag. cons_walk. Qed.
Lemma cons_parse_smoothing_group : forall P gs, cons_if P always (parse_smoothing_group gs).
Proof. intros. unfold parse_smoothing_group. by_tag. cons_walk. Qed.
Lemma cons_parse_material_name : forall P ns, cons_if P always (parse_material_name ns).
Proof. intros. unfold parse_material_name. by_tag. cons_walk. Qed.
Lemma cons_parse_shape_entries : forall dbg P es t1 t2,
  cons_if P never (parse_shape_entries dbg es t1 t2).
Proof.
  intros. apply cons_any. unfold parse_shape_entries.
  repeat (apply cons_bind_second; [|intros ?]); cons_walk.
Qed.
Lemma cons_parse_geometries : forall P t ns, cons_if P never (parse_geometries t ns).
Proof. intros. apply cons_any. unfold parse_geometries. cons_walk. Qed.
Hint Resolve cons_parse_groups cons_parse_smoothing_group cons_parse_material_name
  cons_parse_shape_entries cons_parse_geometries : cons.

Lemma cons_object_g : forall P g, cons_if P always (parse_object_g fuel g).
Proof. intros. unfold parse_object_g. destruct (groups g); by_tag; cons_walk. Qed.
Lemma cons_object_s : forall P s, cons_if P always (parse_object_s s).
Proof. intros. unfold parse_object_s. destruct (smoothing_groups s); by_tag; cons_walk. Qed.
Lemma cons_object_usemtl : forall P m, cons_if P always (parse_object_usemtl m).
Proof.
  intros. unfold parse_object_usemtl. cbv zeta. apply cons_bind_first; [|intros ?; cons_walk].
  destruct (material_names m); by_tag; cons_walk.
Qed.
Lemma cons_object_v : forall P st, cons_if P always (parse_object_v st).
Proof. intros. unfold parse_object_v. by_tag. cons_walk. Qed.
Lemma cons_object_vt : forall P st, cons_if P always (parse_object_vt st).
Proof. intros. unfold parse_object_vt. by_tag. cons_walk. Qed.
Lemma cons_object_vn : forall P st, cons_if P always (parse_object_vn st).
Proof. intros. unfold parse_object_vn. by_tag. cons_walk. Qed.
Lemma cons_object_element : forall dbg P st, cons_if P always (parse_object_element dbg fuel st).
Proof. intros. unfold parse_object_element. cbv zeta. by_tag. cons_walk. Qed.
Hint Resolve cons_object_g cons_object_s cons_object_usemtl cons_object_v cons_object_vt
  cons_object_vn cons_object_element : cons.

(** The object loop goes on only after consuming a token, and stops without
    consuming only in front of [o] or at the end. *)
Definition object_goes_on (ts : list bytes) : Prop :=
  match ts with
  | [] => False
  | t :: _ => t <> lit "o"
  end.

Lemma cons_object_body_gen : forall dbg (P : list bytes -> Prop) (C : step object_state object_state -> Prop) st,
  (C = always -> forall ts, P ts -> object_goes_on ts) ->
  (C = is_continue \/ C = always) ->
  cons_if P C (parse_object_body dbg fuel st).
Proof.
  intros dbg P C st HP HC. unfold parse_object_body. apply cons_peek_bind. intros t.
  repeat match goal with
  | |- cons_if _ _ (if ?b then _ else _) =>
      destruct b; [apply cons_bind_first; [solve [auto with cons]|intros ?; cons_walk]|]
  end.
  destruct t as [t|].
  - destruct (bytes_eqb_spec t (lit "o")) as [->|Hne]; [|apply cons_error].
    destruct HC as [->| ->].
    + apply cons_ret_not. tauto.
    + intros l ts Hl [Hp Ht]. specialize (HP eq_refl ts Hp).
      destruct ts; cbn in *; congruence.
  - destruct HC as [->| ->].
    + apply cons_ret_not. tauto.
    + intros l ts Hl [Hp Ht]. specialize (HP eq_refl ts Hp).
      destruct ts; cbn in *; [contradiction|congruence].
Qed.

Lemma always_is_continue : @always (step object_state object_state) <> is_continue.
Proof.
  intro H. assert (E : always (Break (A := object_state) (object_state_new (mkIndexRanges 0 0 0 0 0 0)))
                 = is_continue (Break (A := object_state) (object_state_new (mkIndexRanges 0 0 0 0 0 0))))
    by now rewrite H.
  cbn in E. unfold always in E. rewrite <- E. exact I.
Qed.

Lemma cons_object_body : forall dbg st, cons_if always is_continue (parse_object_body dbg fuel st).
Proof.
  intros. apply cons_object_body_gen; auto.
  intros H. exfalso. apply always_is_continue. auto.
Qed.

Lemma cons_object_body_first : forall dbg st,
  cons_if object_goes_on always (parse_object_body dbg fuel st).
Proof. intros. apply cons_object_body_gen; auto. Qed.

Lemma cons_parse_object_name : forall l t ts, length (t :: ts) < fuel -> t = lit "o" ->
  consumed l (t :: ts) always (parse_object_name fuel (list_parser l (t :: ts))).
Proof.
  intros l t ts Hl ->. destruct ts as [|nm ts].
  - exists [lit "o"]. cbn. repeat split; auto.
  - set (l' := if bytes_eqb nm nl then l + 1 else l).
    assert (E : parse_object_name fuel (list_parser l (lit "o" :: nm :: ts)) =
                (skip_one_or_more_newlines fuel ;;; ret nm) (list_parser l' ts)) by reflexivity.
    rewrite E. change (lit "o" :: nm :: ts) with ([lit "o"; nm] ++ ts).
    eapply (consumed_app _ _ l [lit "o"; nm] ts never); [|intros; left; discriminate].
    rewrite !count_nl_cons. change (bytes_eqb (lit "o") nl) with false.
    replace (l + _) with l'
      by (subst l'; unfold count_nl; cbn; destruct (bytes_eqb nm nl); lia).
    refine (cons_bind_first _ _ _ always never _ _ _ _ l' ts _ I);
      [apply cons_skip_one|intros; apply cons_ret|cbn in Hl; lia].
Qed.

Lemma cons_parse_object : forall dbg r,
  cons_if (fun ts => ts <> []) always (parse_object dbg fuel r).
Proof.
  intros dbg r l [|t ts] Hl Hne; [congruence|].
  assert (Htail : forall n, consumes (fun p =>
    (st <- loop fuel (parse_object_body dbg fuel) (object_state_new r) ;;
     shape_entries <- parse_shape_entries dbg (elements (os_data st))
                     (group_entry_table (os_groups st))
                     (smoothing_group_entry_table (os_smoothing st)) ;;
     geometries <- parse_geometries (material_name_entry_table (os_material st))
                  (material_names (os_material st)) ;;
     let d := os_data st in
     let r := os_ranges st in
     ret (mkObject n (vertices d) (texture_vertices d) (normal_vertices d)
            (groups (os_groups st)) (smoothing_groups (os_smoothing st)) (elements d)
            shape_entries geometries,
       mkIndexRanges (min_vertex_index r + length (vertices d)) (max_vertex_index r)
                     (min_texture_index r + length (texture_vertices d)) (max_texture_index r)
                     (min_normal_index r + length (normal_vertices d)) (max_normal_index r))) p)).
  { intros n. apply (cons_bind_second _ _ _ _ _ (loop fuel (parse_object_body dbg fuel) (object_state_new r))).
    - apply cons_loop. apply cons_object_body.
    - intros st. cons_walk. }
  destruct (bytes_eqb_spec t (lit "o")) as [E|Hno].
  - unfold parse_object.
    refine (cons_bind_first _ _ _ (fun ts' => ts' = t :: ts) always (parse_object_name fuel) _ _ Htail l (t :: ts) Hl eq_refl).
    intros l0 ts0 Hl0 ->. now apply cons_parse_object_name.
  - unfold parse_object, bind at 1.
    assert (En : parse_object_name fuel (list_parser l (t :: ts)) = (Ok [], list_parser l (t :: ts))).
    { apply bytes_eqb_neq in Hno. unfold parse_object_name, bind at 1.
      change (peek (list_parser l (t :: ts))) with (Ok (E := parse_error ObjTypes.error_kind) (Some t), list_parser l (t :: ts)).
      cbn [is_tok]. now rewrite Hno. }
    rewrite En.
    refine (cons_bind_first _ _ _ object_goes_on always
      (loop fuel (parse_object_body dbg fuel) (object_state_new r)) _ _ _ l (t :: ts) Hl _).
    + apply cons_loop_first; [apply cons_object_body|apply cons_object_body_first].
    + intros st. cons_walk.
    + cbn. auto.
Qed.

Lemma cons_parse_objects : forall dbg P, cons_if P never (parse_objects dbg fuel).
Proof.
  intros. unfold parse_objects. apply cons_bind_second; [auto with cons|intros _].
  apply cons_loop. intros [os r]. apply cons_peek_bind. intros [t|].
  - apply cons_bind_first; [|intros [o r']; cons_walk].
    eapply cons_weaken; [| |apply cons_parse_object]; auto.
    intros ts [_ H]. destruct ts; discriminate.
  - apply cons_ret_not. tauto.
Qed.
Lemma cons_parse_material_library_line : forall P ls,
  cons_if P always (parse_material_library_line fuel ls).
Proof. intros. unfold parse_material_library_line. by_tag. cons_walk. Qed.
Hint Resolve cons_parse_objects cons_parse_material_library_line : cons.
Lemma cons_parse_material_libraries : forall P, cons_if P never (parse_material_libraries fuel).
Proof.
  intros. unfold parse_material_libraries. apply cons_bind_second; [auto with cons|intros _].
  apply cons_loop. intros ls. apply cons_peek_bind. intros t.
  destruct (is_tok t "mtllib").
  - by_tag. cons_walk.
  - apply cons_ret_not. tauto.
Qed.
Hint Resolve cons_parse_material_libraries : cons.
Lemma cons_parse_objset : forall dbg P, cons_if P never (parse_objset dbg fuel).
Proof. intros. unfold parse_objset. cons_walk. Qed.

(** ** src/mtl.rs *)

Lemma cons_mtl_next_string : forall P, cons_if P always MtlModel.next_string.
Proof.
  intros. unfold MtlModel.next_string. apply cons_next_bind; intros; [apply cons_ret|apply cons_error].
Qed.
Lemma cons_mtl_expect_tag : forall P tag, cons_if P always (MtlModel.expect_tag tag).
Proof.
  intros. unfold MtlModel.expect_tag. apply cons_next_bind; intros; [|apply cons_error]. cons_walk.
Qed.
Hint Resolve cons_mtl_next_string cons_mtl_expect_tag : cons.
Lemma cons_mtl_parse_f64 : forall P, cons_if P always MtlModel.parse_f64.
Proof. intros. unfold MtlModel.parse_f64. by_tag. cons_walk. Qed.
Lemma cons_mtl_parse_usize : forall P, cons_if P always MtlModel.parse_usize.
Proof. intros. unfold MtlModel.parse_usize. by_tag. cons_walk. Qed.
Hint Resolve cons_mtl_parse_f64 cons_mtl_parse_usize : cons.
Lemma cons_parse_color : forall P, cons_if P always parse_color.
Proof. intros. unfold parse_color. by_tag. cons_walk. Qed.
Lemma cons_parse_map_name : forall P, cons_if P never parse_map_name.
Proof. intros. unfold parse_map_name. cons_walk. Qed.
Hint Resolve cons_parse_color cons_parse_map_name : cons.
Lemma cons_parse_illumination_model : forall P, cons_if P always parse_illumination_model.
Proof. intros. unfold parse_illumination_model. by_tag. cons_walk. Qed.
Lemma cons_parse_newmtl : forall P, cons_if P always parse_newmtl.
Proof.
  intros. unfold parse_newmtl. apply cons_next_bind; [intros t|apply cons_error].
  cons_walk.
Qed.
Hint Resolve cons_parse_illumination_model cons_parse_newmtl : cons.

(** A map parser called in front of its own tag consumes it. *)
Lemma cons_map_at : forall tag t,
  is_tok t tag = true ->
  cons_if (fun ts => always ts /\ hd_error ts = t) always
    (t <- peek ;; (if is_tok t tag then MtlModel.expect_tag (lit tag) ;;; parse_map_name else ret None)).
Proof.
  intros tag t Ht. apply cons_peek_bind. intros t' l ts Hl [[_ H1] H2].
  rewrite <- H2, H1, Ht.
  refine (cons_bind_first _ _ _ always always _ _ _ _ l ts Hl I); [|intros _]; auto with cons.
Qed.

Lemma cons_bump_at : forall t, is_tok t "map_Bump" || is_tok t "bump" = true ->
  cons_if (fun ts => always ts /\ hd_error ts = t) always parse_map_bump.
Proof.
  intros t Ht. apply cons_peek_bind. intros t' l ts Hl [[_ H1] H2].
  rewrite <- H2, H1. destruct (is_tok t "map_Bump").
  - refine (cons_bind_first _ _ _ always always _ _ _ _ l ts Hl I); [|intros _]; auto with cons.
  - cbn in Ht. rewrite Ht.
    refine (cons_bind_first _ _ _ always always _ _ _ _ l ts Hl I); [|intros _]; auto with cons.
Qed.

Lemma cons_material_body : forall m, cons_if always is_continue (parse_material_body fuel m).
Proof.
  intros. unfold parse_material_body. cbv zeta. apply cons_peek_bind. intros t.
  repeat match goal with
  | |- cons_if _ _ (if ?b then _ else _) =>
      destruct b eqn:?;
      [ apply cons_bind_first;
        [ first [ solve [apply cons_map_at; assumption]
                | solve [apply cons_bump_at; assumption]
                | unfold parse_ambient_component, parse_diffuse_component, parse_specular_component,
                    parse_emissive_component, parse_dissolve_component, parse_specular_exponent,
                    parse_optical_density; solve [auto with cons]
                | unfold parse_ambient_component, parse_diffuse_component, parse_specular_component,
                    parse_emissive_component, parse_dissolve_component, parse_specular_exponent,
                    parse_optical_density; by_tag; cons_walk ]
        | intros ?; cons_walk ] |]
  end.
  destruct t as [t|]; [destruct (bytes_eqb t (lit "newmtl"))|];
    solve [apply cons_error | apply cons_ret_not; tauto].
Qed.

Lemma cons_parse_material : forall P, cons_if P always (parse_material fuel).
Proof.
  intros. unfold parse_material. by_tag. cbv zeta.
  apply cons_bind_second; [auto with cons|intros _].
  apply cons_loop. apply cons_material_body.
Qed.
Hint Resolve cons_parse_material : cons.

Lemma cons_parse_mtlset : forall P, cons_if P never (parse_mtlset fuel).
Proof.
  intros. unfold parse_mtlset. apply cons_bind_second; [auto with cons|intros _].
  apply cons_bind_second; [|intros ms; cons_walk].
  apply cons_loop. intros ms. apply cons_peek_bind. intros t.
  destruct (is_tok t "newmtl").
  - by_tag. cons_walk.
  - apply cons_ret_not. tauto.
Qed.

End Consume.
