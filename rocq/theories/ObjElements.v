(** Elements, groups, smoothing groups and materials over a token list. *)
From Verif Require Import ObjModel SourceProofs ConsumeProofs RunProofs ObjSpec ObjErrorSpec ObjAccept.
Local Open Scope list_scope.

(** Compare the literals. *)
Ltac eval_eqb :=
  cbn [is_tok is_nl hd_error];
  repeat match goal with
  | |- context [bytes_eqb ?a ?b] =>
      let v := eval vm_compute in (bytes_eqb a b) in
      match v with true => idtac | false => idtac end;
      change (bytes_eqb a b) with v
  end; cbn [orb andb negb].

Section Elements.
Context (fuel : nat).

(** ** Points *)

Definition point_at (base : counts) (k : nat) : element := Point (V (local_index (n_v base) k)).

Definition point_round (base now : counts) (a : nat * list element)
  : reads (step (nat * list element) (nat * list element)) :=
  fun ts s rest =>
    match ts with
    | [] => s = Break a /\ rest = []
    | t :: ts' =>
        rest = ts' /\
        ((t = nl /\ s = Break a) \/
         (exists k, point_token base now t k /\ s = Continue (fst a + 1, snd a ++ [point_at base k])))
    end.

Definition bad_point_round (base now : counts) (a : nat * list element) : reads complaint :=
  fun ts c rest =>
    match ts with
    | [] => False
    | t :: ts' => rest = ts' /\ t <> nl /\ bad_number (n_v base) (n_v now) t c
    end.

Lemma point_not_nl : forall base now k, ~ point_token base now nl k.
Proof. intros base now k [H _]. discriminate H. Qed.

Lemma points_not_nl : forall base now toks ks, Forall2 (point_token base now) toks ks -> ~ In nl toks.
Proof.
  intros base now toks ks H. induction H as [|t k toks ks H H' IH]; [intros []|].
  intros [->|Hi]; auto. eapply point_not_nl; eauto.
Qed.

Lemma reads_line_cons : forall t ts names rest, t <> nl ->
  reads_line (t :: ts) (t :: names) rest <-> reads_line ts names rest.
Proof.
  intros t ts names rest Ht. split; intros H.
  - inversion H as [? Hi|? ? Hi E]; subst; [apply line_eof|inversion E; subst; apply line_nl]; intros Hj; apply Hi; now right.
  - inversion H; subst; [apply line_eof|apply (line_nl (t :: names))]; cbn; intuition congruence.
Qed.

Lemma point_rounds : forall base now ts n els r rest,
  loops (point_round base now) (n, els) ts r rest <->
  exists toks ks, reads_line ts toks rest /\ Forall2 (point_token base now) toks ks /\
    r = (n + length ks, els ++ map (point_at base) ks).
Proof.
  intros base now ts n els r rest. split.
  - intros H. remember (n, els) as a eqn:Ea. revert n els Ea.
    induction H as [a ts b rest H|a ts a' mid b rest H HL IH]; intros n els ->; destruct ts as [|t ts]; cbn in H; crush.
    + exists [], []. cbn. rewrite Nat.add_0_r, app_nil_r. repeat split; auto. apply line_eof. auto.
    + exists [], []. cbn. rewrite Nat.add_0_r, app_nil_r. repeat split; auto. apply (line_nl []). auto.
    + edestruct IH as (toks & ks & Hn & Hk & ->); [reflexivity|]. exists (t :: toks), (x :: ks). repeat split.
      * apply reads_line_cons; auto. intros ->. eapply point_not_nl; eauto.
      * constructor; auto.
      * cbn. f_equal; [lia|]. now rewrite <- app_assoc.
  - intros (toks & ks & H & Hk & ->). revert n els ts H. induction Hk as [|t k toks ks Ht Hk IH]; intros n els ts H.
    + cbn. rewrite Nat.add_0_r, app_nil_r. apply loops_break. inversion H; subst; cbn; auto.
    + assert (Hn : t <> nl) by (intros ->; eapply point_not_nl; eauto).
      assert (Hts : exists ts', ts = t :: ts') by (inversion H; subst; eexists; reflexivity).
      destruct Hts as [ts' ->]. apply reads_line_cons in H; auto.
      eapply loops_continue; [cbn; split; [reflexivity|right; eauto]|].
      cbn. replace (n + S (length ks)) with (n + 1 + length ks) by lia.
      replace (els ++ point_at base k :: map (point_at base) ks)
        with ((els ++ [point_at base k]) ++ map (point_at base) ks) by (now rewrite <- app_assoc).
      now apply IH.
Qed.

Lemma bad_point_rounds : forall base now ts a b rest,
  loops_bad (point_round base now) (fun a => lift (bad_point_round base now a)) a ts b rest <->
  exists toks ks t c, ts = toks ++ t :: rest /\ Forall2 (point_token base now) toks ks /\ t <> nl /\
    bad_number (n_v base) (n_v now) t c /\ b = Fails (fst c) (snd c).
Proof.
  intros base now ts a b rest. split.
  - intros H. induction H as [a ts b rest H|a ts a' mid b rest H HL IH];
      unfold lift, bad_point_round in H; destruct ts as [|t ts]; cbn in H; crush.
    + exists [], [], t, x. cbn. auto 8.
    + exists (t :: x), (x3 :: x0), x1, x2. cbn. auto 8.
  - intros (toks & ks & t & c & -> & Hk & Ht & Hc & ->). revert a.
    induction Hk as [|t' k toks ks Hk Hks IH]; intros a.
    + apply bad_now. exists c. cbn. auto.
    + eapply bad_later; [cbn; split; [reflexivity|right; eauto]|]. apply IH.
Qed.

Lemma progressive_point : forall base now, progressive fuel (point_round base now).
Proof. intros base now a ts a' mid _ H. destruct ts; cbn in H; crush. cbn. lia. Qed.

Definition point_body (base now : counts) : nat * list element ->
    M list_source ObjTypes.error_kind (step (nat * list element) (nat * list element)) :=
  fun '(elements_parsed, elements) =>
    t <- next ;;
    match t with
    | Some st =>
        if negb (bytes_eqb st nl) then
          match RustStd.parse_isize st with
          | Some val =>
              v_index <- calculate_index false (v_range base now) val ;;
              ret (Continue (elements_parsed + 1, elements ++ [Point (V v_index)]))
          | None => error_expected_integer st
          end
        else ret (Break (elements_parsed, elements))
    | None => ret (Break (elements_parsed, elements))
    end.

(** The index of a token that is a number. *)
Definition parse_index (base now : counts) (t : bytes) : M list_source ObjTypes.error_kind nat :=
  match RustStd.parse_isize t with
  | Some val => calculate_index false (v_range base now) val
  | None => error_expected_integer t
  end.

Lemma acc_parse_index : forall base now t, small_counts now ->
  acc fuel (parse_index base now t)
    (fun ts i rest => rest = ts /\ exists k, point_token base now t k /\ i = local_index (n_v base) k).
Proof.
  intros base now t (Hs & _). unfold parse_index, point_token, number_token.
  destruct (RustStd.parse_isize t) as [z|] eqn:E.
  - eapply acc_iff; [|apply acc_calculate_index; auto; eapply parse_isize_range; eauto].
    intros ts i rest _. split; intros H; crush; split; auto.
    + exists x. auto.
    + exists x. auto.
  - eapply acc_iff; [|apply acc_error]. intros ts i rest _. split; [intros []|]. intros H. crush.
Qed.

Lemma bad_parse_index : forall base now t, small_counts now ->
  bad fuel (parse_index base now t)
    (lift (fun ts c rest => rest = ts /\ bad_number (n_v base) (n_v now) t c)).
Proof.
  intros base now t (Hs & _). unfold parse_index.
  destruct (RustStd.parse_isize t) as [z|] eqn:E.
  - eapply bad_iff; [|apply bad_calculate_index; auto; eapply parse_isize_range; eauto].
    intros ts i rest _. split; intros H; crush.
    + eexists (_, _). split; [reflexivity|]. split; auto. now apply number_out.
    + inversion H1; subst; [congruence|]. rewrite E in *. crush. eexists (_, _). split; [reflexivity|]. cbn. auto.
  - eapply bad_iff; [|apply bad_error]. intros ts i rest _. split; intros H; crush.
    + eexists (_, _). split; [|split; [auto|]]; [|now apply number_not]. reflexivity.
    + inversion H1; subst; [auto|congruence].
Qed.
Hint Resolve acc_parse_index bad_parse_index : run.

Lemma point_body_eq : forall base now n els p,
  point_body base now (n, els) p =
  (t <- next ;;
   match t with
   | Some st =>
       if negb (bytes_eqb st nl) then
         v_index <- parse_index base now st ;;
         ret (Continue (n + 1, els ++ [Point (V v_index)]))
       else ret (Break (n, els))
   | None => ret (Break (n, els))
   end) p.
Proof.
  intros base now n els p. unfold point_body, parse_index, bind. destruct (next p) as [[[t|]|?|?|] ?]; auto.
  destruct (negb _); auto. destruct (RustStd.parse_isize t); auto.
Qed.

Lemma acc_ext : forall K A (m m' : M list_source K A) R,
  (forall p, m p = m' p) -> acc fuel m' R -> acc fuel m R.
Proof.
  intros K A m m' R E H ts Hl. destruct (H ts Hl) as [H1 H2]. split; auto.
  intros l a rest. rewrite <- (H1 l). unfold ok_to. rewrite E. reflexivity.
Qed.

Lemma bad_ext : forall K A (m m' : M list_source K A) R,
  (forall p, m p = m' p) -> bad fuel m' R -> bad fuel m R.
Proof.
  intros K A m m' R E H ts Hl l b rest. rewrite <- (H ts Hl l). unfold bad_to. rewrite E. reflexivity.
Qed.

Lemma acc_point_body : forall base now a, small_counts now ->
  acc fuel (point_body base now a) (point_round base now a).
Proof.
  intros base now [n els] Hs. eapply acc_ext; [apply point_body_eq|].
  eapply acc_iff; [|run]. intros ts s rest _. split.
  - intros H. crush. destruct ts as [|t ts]; cbn in *; crush; auto.
    destruct (bytes_eqb_spec t nl); cbn in *; crush; auto 6. split; auto. right. eexists; split; eauto.
  - intros H. crush. exists (hd_error ts), (tl ts). split; auto.
    destruct ts as [|t ts]; cbn in *; crush; auto.
    + rewrite bytes_eqb_refl. cbn. auto.
    + destruct (bytes_eqb_spec t nl); subst; cbn; [exfalso; eapply point_not_nl; eauto|].
      eexists _, ts. split; [|split; reflexivity]. eauto.
Qed.

Lemma bad_point_body : forall base now a, small_counts now ->
  bad fuel (point_body base now a) (lift (bad_point_round base now a)).
Proof.
  intros base now [n els] Hs. eapply bad_ext; [apply point_body_eq|].
  eapply bad_iff; [|run]. intros ts s rest _. split.
  - intros H. crush. destruct ts as [|t ts]; cbn in *; crush.
    destruct (bytes_eqb_spec t nl); cbn in *; crush. eauto 8.
  - intros H. crush. right. exists (hd_error ts), (tl ts). split; auto.
    destruct ts as [|t ts]; cbn in *; crush; auto.
    destruct (bytes_eqb_spec t nl); subst; cbn; [congruence|]. left. eauto 8.
Qed.

Lemma acc_parse_point : forall base now els, small_counts now ->
  acc fuel (parse_point false fuel els (v_range base now))
    (fun ts r rest => exists ks, reads_statement base now ts (SPoint ks) rest /\
       r = (length ks, els ++ elements_of base (SPoint ks))).
Proof.
  intros base now els Hs.
  eapply acc_ext with (m' := (expect_tag (lit "p") ;;; t <- next_string ;; i <- parse_index base now t ;;
     loop fuel (point_body base now) (1, els ++ [Point (V i)]))).
  { intros p. unfold parse_point, ObjModel.parse_isize, parse_index, bind.
    destruct (expect_tag _ p) as [[[]|?|?|] p1]; auto.
    destruct (next_string p1) as [[t|?|?|] p2]; auto. destruct (RustStd.parse_isize t); reflexivity. }
  assert (HL : forall a, acc fuel (loop fuel (point_body base now) a) (loops (point_round base now) a)).
  { intros a. apply acc_loop; [intros; now apply acc_point_body|apply progressive_point]. }
  eapply acc_iff; [|run; apply HL].
  intros ts r rest _. split.
  - intros ([] & m1 & -> & t & m2 & -> & i & m3 & (-> & k & Hk & ->) & H).
    apply point_rounds in H. destruct H as (toks & ks & H1 & H2 & ->). exists (k :: ks). split.
    + apply reads_p with (toks := t :: toks); [|constructor; auto|discriminate].
      apply reads_line_cons; auto. intros ->. eapply point_not_nl; eauto.
    + cbn. now rewrite <- app_assoc.
  - intros (ks & H & ->). inversion H; subst. 
    match goal with H : Forall2 _ _ _ |- _ => destruct H; [congruence|] end.
    assert (Hn : x <> nl) by (intros ->; eapply point_not_nl; eauto).
    assert (Hts : exists ts', ts0 = x :: ts').
    { match goal with H : reads_line _ _ _ |- _ => inversion H; subst end; eexists; reflexivity. }
    destruct Hts as [ts' ->]. 
    match goal with H : reads_line _ _ _ |- _ => apply reads_line_cons in H; auto end.
    exists tt, (x :: ts'). split; auto. exists x, ts'. split; auto.
    exists (local_index (n_v base) y), ts'. split; [eauto|]. apply point_rounds.
    exists l, l'. repeat split; auto. cbn. f_equal. now rewrite <- app_assoc.
Qed.

Lemma bad_parse_point : forall base now els, small_counts now ->
  bad fuel (parse_point false fuel els (v_range base now))
    (fails_with "p" (fails_statement base now)).
Proof.
  intros base now els Hs.
  eapply bad_ext with (m' := (expect_tag (lit "p") ;;; t <- next_string ;; i <- parse_index base now t ;;
     loop fuel (point_body base now) (1, els ++ [Point (V i)]))).
  { intros p. unfold parse_point, ObjModel.parse_isize, parse_index, bind.
    destruct (expect_tag _ p) as [[[]|?|?|] p1]; auto.
    destruct (next_string p1) as [[t|?|?|] p2]; auto. destruct (RustStd.parse_isize t); reflexivity. }
  assert (HL : forall a, bad fuel (loop fuel (point_body base now) a)
     (loops_bad (point_round base now) (fun a => lift (bad_point_round base now a)) a)).
  { intros a. apply bad_loop; [intros; now apply acc_point_body|intros; now apply bad_point_body|apply progressive_point]. }
  eapply bad_iff; [|run; apply HL].
  intros ts b rest _. split.
  - intros [(c & -> & H)|([] & m1 & -> & [(c & -> & -> & -> & ->)|(t & m2 & -> & [(c & -> & -> & H)|
      (i & m3 & (-> & k & Hk & ->) & H)])])].
    + apply lift_fails. auto.
    + apply lift_fails. right. split; auto. apply fails_p_eof.
    + apply lift_fails. right. split; auto. apply (fails_p base now [] []); auto.
    + apply bad_point_rounds in H. destruct H as (toks & ks & t' & c & -> & H1 & H2 & H3 & ->).
      apply lift_fails. right. split; auto.
      change (t :: toks ++ t' :: rest) with ((t :: toks) ++ t' :: rest).
      apply fails_p with (ks := k :: ks); auto.
  - intros (c & -> & [H|[H1 H2]]); [now_bad|].
    right. inv_fails H1 H2; exists tt; eexists; (split; [reflexivity|]).
    + left. eexists (_, _). split; [reflexivity|]. auto.
    + right. destruct H as [|t' k toks ks Hk Hks].
      * exists t, rest. split; auto. left. exists c. auto.
      * destruct H0 as [H0|H0]; [discriminate|]. exists t', (toks ++ t :: rest). split; auto. right.
        do 2 eexists. split; [eauto|]. apply bad_point_rounds. eauto 10.
Qed.

(** ** Forms *)

Lemma same_type_form : forall base r1 r2,
  has_same_type_as (local_ref base r1) (local_ref base r2) = true <-> form r1 = form r2.
Proof.
  intros base [v1 [t1|] [n1|]] [v2 [t2|] [n2|]]; cbn; split; intros H; auto; discriminate.
Qed.

Lemma returns_verify : forall base r rs,
  exists b, returns (verify_vtn_indices (S := list_source) (map (local_ref base) (r :: rs))) b /\
            (b = true <-> same_form (r :: rs)).
Proof.
  intros base r rs.
  set (is := map (local_ref base) (r :: rs)).
  set (f := fun (ok : bool) i => if ok then match nth_error is i with
                                           | Some a => has_same_type_as a (local_ref base r)
                                           | None => false end else false).
  exists (fold_left f (range 1 (length is)) true). split.
  - unfold verify_vtn_indices. apply returns_for_each. intros ok i Hi. unfold f.
    destruct ok; [|apply returns_ret].
    apply in_seq in Hi. destruct (nth_error is i) as [a|] eqn:E.
    + eapply returns_bind; [apply returns_index; exact E|].
      eapply returns_bind; [apply returns_index; reflexivity|]. apply returns_ret.
    + apply nth_error_None in E. lia.
  - assert (Hf : forall l b, fold_left f l b = true <->
       b = true /\ forall i, In i l -> exists a, nth_error is i = Some a /\ has_same_type_as a (local_ref base r) = true).
    { induction l as [|i l IH]; intros b; cbn [fold_left].
      - split; [intros ->; split; auto; intros i []|tauto].
      - rewrite IH. unfold f at 1. split.
        + intros [H1 H2]. destruct b; [|discriminate]. split; auto. intros j [<-|Hj]; auto.
          destruct (nth_error is i); [eauto|discriminate].
        + intros [-> H]. split; [|intros j Hj; apply H; now right].
          destruct (H i (or_introl eq_refl)) as (a & -> & Ha). auto. }
    rewrite Hf. clear Hf f. unfold same_form, is. split.
    + intros [_ H]. assert (H0 : forall r', In r' (r :: rs) -> form r' = form r).
      { intros r' Hr'. destruct Hr' as [<-|Hr']; auto.
        apply In_nth_error in Hr'. destruct Hr' as [j Hj].
        destruct (H (S j)) as (a & Ha & Hs).
        { apply in_seq. cbn. rewrite map_length.
          assert (j < length rs) by (apply nth_error_Some; congruence). lia. }
        cbn in Ha. rewrite nth_error_map, Hj in Ha. cbn in Ha. inversion Ha; subst.
        now apply same_type_form in Hs. }
      intros r1 r2 H1 H2. now rewrite (H0 r1 H1), (H0 r2 H2).
    + intros H. split; auto. intros i Hi. apply in_seq in Hi. cbn in Hi. rewrite map_length in Hi.
      rewrite nth_error_map. destruct (nth_error (r :: rs) i) as [r'|] eqn:E.
      * exists (local_ref base r'). split; auto. apply same_type_form. apply H; [|now left].
        eapply nth_error_In; eauto.
      * apply nth_error_None in E. cbn in E. lia.
Qed.

(** ** Pushing elements *)

Lemma returns_push : forall K A X (body : list A -> X -> M list_source K (list A)) (g : X -> A) xs els,
  (forall els x, In x xs -> returns (body els x) (els ++ [g x])) ->
  returns (for_each xs body els) (els ++ map g xs).
Proof.
  intros K A X body g xs. induction xs as [|x xs IH]; intros els H; cbn.
  - rewrite app_nil_r. apply returns_ret.
  - eapply returns_bind; [apply H; now left|].
    replace (els ++ g x :: map g xs) with ((els ++ [g x]) ++ map g xs) by (now rewrite <- app_assoc).
    apply IH. intros. apply H. now right.
Qed.

Lemma pairs_nth : forall A B (f : A -> A -> B) (d : A) l,
  map (fun i => f (nth i l d) (nth (S i) l d)) (seq 0 (length l - 1)) = map (fun '(a, b) => f a b) (pairs l).
Proof.
  intros A B f d l. destruct l as [|a l]; [reflexivity|]. cbn [length]. rewrite Nat.sub_succ, Nat.sub_0_r.
  revert a. induction l as [|b l IH]; intros a; [reflexivity|].
  cbn [length seq map]. unfold pairs. cbn [tl combine map]. f_equal.
  rewrite <- seq_shift, map_map. etransitivity; [|exact (IH b)]. apply map_ext. intros i. reflexivity.
Qed.

Lemma pairs_length : forall A (l : list A), length (pairs l) = length l - 1.
Proof. intros A [|a l]; [reflexivity|]. unfold pairs. rewrite combine_length. cbn [tl length]. lia. Qed.

Lemma returns_len_minus : forall K A (v : list A) n, n <= length v ->
  returns (K := K) (len_minus false v n) (length v - n).
Proof. intros K A v n H p. unfold len_minus. apply Nat.leb_le in H. now rewrite H. Qed.

Lemma returns_triangulate : forall base els r1 r2 r3 rs,
  let es := elements_of base (SFace (r1 :: r2 :: r3 :: rs)) in
  returns (triangulate (S := list_source) false els (map (local_ref base) (r1 :: r2 :: r3 :: rs)))
    (length es, els ++ es).
Proof.
  intros base els r1 r2 r3 rs es. unfold triangulate.
  set (is := map (local_ref base) (r1 :: r2 :: r3 :: rs)).
  set (corners := map (local_ref base) (r2 :: r3 :: rs)).
  assert (He : es = map (fun i => Face (local_ref base r1) (nth i corners (V 0)) (nth (S i) corners (V 0)))
                        (seq 0 (length corners - 1))).
  { unfold es. cbn [elements_of map]. fold corners.
    rewrite (pairs_nth _ _ (fun b c => Face (local_ref base r1) b c)). reflexivity. }
  assert (Hl : length is - 2 = length corners - 1) by (unfold is, corners; cbn; lia).
  eapply returns_bind; [apply returns_index; reflexivity|].
  eapply returns_bind; [apply returns_len_minus; unfold is; cbn; lia|].
  eapply returns_bind.
  - apply returns_push with (g := fun i => Face (local_ref base r1) (nth i corners (V 0)) (nth (S i) corners (V 0))).
    intros els' i Hi. apply in_seq in Hi.
    assert (Hn : forall j, j < length corners -> nth_error is (j + 1) = Some (nth j corners (V 0))).
    { intros j Hj. rewrite Nat.add_1_r. unfold is, corners. cbn [map nth_error].
      rewrite <- (map_cons (local_ref base)), <- (map_cons (local_ref base)).
      apply nth_error_nth'. exact Hj. }
    eapply returns_bind; [apply returns_index, Hn; lia|].
    eapply returns_bind; [apply returns_index; replace (i + 2) with (S i + 1) by lia; apply Hn; lia|].
    apply returns_ret.
  - unfold range. rewrite Hl, Nat.sub_0_r, <- He.
    assert (Hlen : length corners - 1 = length es) by (rewrite He, map_length, seq_length; reflexivity).
    rewrite Hlen. apply returns_ret.
Qed.

Definition push_line (is : list vtn_index) (els : list element) (i : nat)
  : M list_source ObjTypes.error_kind (list element) :=
  a <- ParserBase.index is i ;;
  b <- ParserBase.index is (i + 1) ;;
  ret (els ++ [Line a b]).

Lemma returns_lines : forall base els r1 r2 rs,
  let es := elements_of base (SLine (r1 :: r2 :: rs)) in
  let is := map (local_ref base) (r1 :: r2 :: rs) in
  returns (n <- len_minus false is 1 ;;
           elements' <- for_each (range 0 n) (push_line is) els ;;
           ret (n, elements'))
    (length es, els ++ es).
Proof.
  intros base els r1 r2 rs es is.
  assert (He : es = map (fun i => Line (nth i is (V 0)) (nth (S i) is (V 0))) (seq 0 (length is - 1))).
  { unfold es. cbn [elements_of]. fold is. now rewrite (pairs_nth _ _ Line). }
  eapply returns_bind; [apply returns_len_minus; unfold is; cbn; lia|].
  eapply returns_bind.
  - apply returns_push with (g := fun i => Line (nth i is (V 0)) (nth (S i) is (V 0))).
    intros els' i Hi. apply in_seq in Hi. unfold push_line.
    eapply returns_bind; [apply returns_index, nth_error_nth'; lia|].
    eapply returns_bind; [apply returns_index; rewrite Nat.add_1_r; apply nth_error_nth'; lia|].
    apply returns_ret.
  - unfold range. rewrite Nat.sub_0_r, <- He.
    assert (Hlen : length is - 1 = length es) by (rewrite He, map_length, seq_length; reflexivity).
    rewrite Hlen. apply returns_ret.
Qed.

(** ** Lines and faces *)

(** The result of reading an element. *)
Definition pushed (base : counts) (els : list element) (s : statement) : nat * list element :=
  (length (elements_of base s), els ++ elements_of base s).

(** What happens once the references have been read. *)
Lemma acc_line_end : forall base els r1 r2 rs,
  acc fuel (ok <- verify_vtn_indices (map (local_ref base) (r1 :: r2 :: rs)) ;;
            if negb ok then
              error EveryVTNIndexMustHaveTheSameFormForAGivenElement msg_line_form
            else
              n <- len_minus false (map (local_ref base) (r1 :: r2 :: rs)) 1 ;;
              elements' <- for_each (range 0 n) (push_line (map (local_ref base) (r1 :: r2 :: rs))) els ;;
              ret (n, elements'))
    (fun ts r rest => same_form (r1 :: r2 :: rs) /\ rest = ts /\ r = pushed base els (SLine (r1 :: r2 :: rs))).
Proof.
  intros base els r1 r2 rs. destruct (returns_verify base r1 (r2 :: rs)) as (b & Hb & Hf).
  eapply acc_bind_returns; [exact Hb|]. destruct b; cbn [negb].
  - eapply acc_iff; [|apply acc_returns, returns_lines]. intros ts r rest _. unfold r_ret. split.
    + intros [-> ->]. repeat split. now apply Hf.
    + intros (_ & -> & ->). auto.
  - eapply acc_iff; [|apply acc_error]. intros ts r rest _. split; [intros []|].
    intros (H & _). apply Hf in H. discriminate.
Qed.

Lemma bad_line_end : forall base els r1 r2 rs,
  bad fuel (ok <- verify_vtn_indices (map (local_ref base) (r1 :: r2 :: rs)) ;;
            if negb ok then
              error EveryVTNIndexMustHaveTheSameFormForAGivenElement msg_line_form
            else
              n <- len_minus false (map (local_ref base) (r1 :: r2 :: rs)) 1 ;;
              elements' <- for_each (range 0 n) (push_line (map (local_ref base) (r1 :: r2 :: rs))) els ;;
              ret (n, elements'))
    (lift (fun ts c rest => ~ same_form (r1 :: r2 :: rs) /\ rest = ts /\
             c = (EveryVTNIndexMustHaveTheSameFormForAGivenElement, msg_line_form))).
Proof.
  intros base els r1 r2 rs. destruct (returns_verify base r1 (r2 :: rs)) as (b & Hb & Hf).
  eapply bad_bind_returns; [exact Hb|]. destruct b; cbn [negb].
  - eapply bad_iff; [|eapply bad_returns, returns_lines]. intros ts r rest _. split; [intros []|].
    intros (c & -> & H & _). exfalso. apply H. now apply Hf.
  - eapply bad_iff; [|apply bad_error]. intros ts r rest _. split.
    + intros [-> ->]. eexists (_, _). split; [reflexivity|]. repeat split.
      intros H. apply Hf in H. discriminate.
    + intros (c & -> & _ & -> & ->). auto.
Qed.

Definition parse_line' (base now : counts) (els : list element)
  : M list_source ObjTypes.error_kind (nat * list element) :=
  expect_tag (lit "l") ;;;
  v1 <- parse_ref base now ;;
  v2 <- parse_ref base now ;;
  '(_, is) <- parse_vtn_indices false fuel [v1; v2] (v_range base now) (t_range base now) (n_range base now) ;;
  (ok <- verify_vtn_indices is ;;
   if negb ok then
     error EveryVTNIndexMustHaveTheSameFormForAGivenElement msg_line_form
   else
     n <- len_minus false is 1 ;;
     elements' <- for_each (range 0 n) (push_line is) els ;;
     ret (n, elements')).

Lemma parse_line_eq : forall base now els,
  parse_line false fuel els (v_range base now) (t_range base now) (n_range base now) = parse_line' base now els.
Proof. reflexivity. Qed.


Definition one_ref (base now : counts) : reads reference :=
  fun ts r rest => exists t, ts = t :: rest /\ valid_ref base now t r.

Definition bad_one_ref (base now : counts) : reads complaint :=
  fun ts c rest => match ts with
                   | [] => c = (EndOfFile, msg_end) /\ rest = []
                   | t :: rest' => bad_ref base now t c /\ rest = rest'
                   end.

Lemma acc_one_ref : forall base now, small_counts now ->
  acc fuel (parse_ref base now) (fun ts i rest => exists r, one_ref base now ts r rest /\ i = local_ref base r).
Proof.
  intros base now Hs. eapply acc_iff; [|now apply acc_parse_ref].
  intros ts i rest _. unfold one_ref. split; intros H; crush; eauto 8.
Qed.

Lemma refs_two : forall base now ts rs rest,
  reads_refs base now ts rs rest /\ 2 <= length rs <->
  exists r1 mid1 r2 mid2 rs', one_ref base now ts r1 mid1 /\ one_ref base now mid1 r2 mid2 /\
    reads_refs base now mid2 rs' rest /\ rs = r1 :: r2 :: rs'.
Proof.
  intros base now ts rs rest. split.
  - intros [H Hl]. inversion H as [| |t1 r1 ts1 rs1 ? V1 H1]; subst; cbn in Hl; try lia.
    inversion H1 as [| |t2 r2 ts2 rs2 ? V2 H2]; subst; cbn in Hl; try lia.
    exists r1, (t2 :: ts2), r2, ts2, rs2. unfold one_ref. eauto 8.
  - intros (r1 & mid1 & r2 & mid2 & rs' & (t1 & -> & V1) & (t2 & -> & V2) & H & ->).
    split; [|cbn; lia]. econstructor; eauto. econstructor; eauto.
Qed.

Lemma acc_parse_line : forall base now els, small_counts now ->
  acc fuel (parse_line false fuel els (v_range base now) (t_range base now) (n_range base now))
    (fun ts r rest => exists rs, reads_statement base now ts (SLine rs) rest /\ r = pushed base els (SLine rs)).
Proof.
  intros base now els Hs. rewrite parse_line_eq. unfold parse_line'.
  eapply acc_iff; [|eapply acc_bind; [apply acc_expect_tag|intros ?];
    eapply acc_bind_map; [now apply acc_one_ref|intros ? r1 ? _];
    eapply acc_bind_map; [now apply acc_one_ref|intros ? r2 ? _];
    eapply acc_bind_map; [now apply acc_parse_refs|intros ? rs ? _]; apply (acc_line_end base els r1 r2 rs)].
  intros ts r rest _. split.
  - intros ([] & m1 & -> & r1 & m2 & H1 & r2 & m3 & H2 & rs & m4 & H3 & Hf & -> & ->).
    exists (r1 :: r2 :: rs). split; auto.
    assert (H : reads_refs base now m1 (r1 :: r2 :: rs) m4 /\ 2 <= length (r1 :: r2 :: rs)).
    { apply refs_two. eauto 12. }
    destruct H. now constructor.
  - intros (rs & H & ->). inversion H as [| | | | | | |ts0 ? ? H1 H2 H3|]; subst.
    pose proof (conj H1 H2) as H4. apply refs_two in H4.
    destruct H4 as (r1 & m1 & r2 & m2 & rs' & V1 & V2 & H4 & ->).
    exists tt, ts0. split; auto. exists r1, m1. split; auto. exists r2, m2. split; auto.
    exists rs', rest. split; auto.
Qed.

Lemma bad_parse_line : forall base now els, small_counts now ->
  bad fuel (parse_line false fuel els (v_range base now) (t_range base now) (n_range base now))
    (fails_with "l" (fails_statement base now)).
Proof.
  intros base now els Hs. rewrite parse_line_eq. unfold parse_line'.
  eapply bad_iff; [|eapply bad_bind; [apply acc_expect_tag|apply bad_expect_tag|intros ?];
    eapply bad_bind_map; [now apply acc_one_ref|now apply bad_parse_ref|intros ? r1 ? _];
    eapply bad_bind_map; [now apply acc_one_ref|now apply bad_parse_ref|intros ? r2 ? _];
    eapply bad_bind_map; [now apply acc_parse_refs|now apply bad_parse_refs|intros ? rs ? _];
    apply (bad_line_end base els r1 r2 rs)].
  intros ts b rest _. split.
  - intros [(c & -> & H)|([] & m1 & -> & [(c & -> & H)|(r1 & m2 & (t1 & -> & V1) & [(c & -> & H)|
      (r2 & m3 & (t2 & -> & V2) & [[]|(rs & m4 & H3 & c & -> & Hf & -> & ->)])])])]; apply lift_fails; auto; right; split; auto.
    + destruct m1 as [|t m1]; destruct H as [H ->]; [subst; apply (fails_l_eof base now [] []); auto|].
      apply (fails_l_ref base now [] []); auto.
    + destruct m2 as [|t m2]; destruct H as [H ->]; [subst; apply (fails_l_eof base now [t1] [r1]); auto|].
      apply (fails_l_ref base now [t1] [r1]); auto.
    + apply fails_l_form with (rs := r1 :: r2 :: rs); auto; [|cbn; lia].
      econstructor; eauto. econstructor; eauto.
  - intros (c & -> & [H|[H1 H2]]); [now_bad|].
    right. inv_fails H1 H2; exists tt; eexists; (split; [reflexivity|]).
    + match goal with H : Forall2 _ _ _ |- _ => destruct H as [|t1 r1 toks rs V1 H] end.
      * left. eexists (_, _). split; [reflexivity|]; auto.
      * destruct H as [|t2 r2 toks rs V2 H]; [|cbn in *; lia].
        right. exists r1, []. split; [exists t1; auto|]. left. eexists (_, _). split; [reflexivity|]; auto.
    + match goal with H : Forall2 _ _ _ |- _ => destruct H as [|t1 r1 toks rs V1 H] end.
      * left. exists c. split; auto. cbn. auto.
      * destruct H as [|t2 r2 toks rs V2 H]; [|cbn in *; lia].
        right. exists r1, (t :: rest). split; [exists t1; auto|]. left. exists c. split; auto.
    + pose proof (conj H H0) as H4. apply refs_two in H4.
      destruct H4 as (r1 & m1 & r2 & m2 & rs' & V1 & V2 & H4 & ->).
      right. exists r1, m1. split; auto. right. exists r2, m2. split; auto. right. exists rs', rest. split; auto.
      eexists (_, _). split; [reflexivity|]; auto.
Qed.

(** The end of a face. *)
Definition face_end (els : list element) (is : list vtn_index)
  : M list_source ObjTypes.error_kind (nat * list element) :=
  if length is <? 3 then
    error EveryFaceElementMustHaveAtLeastThreeVertices msg_few
  else
    ok <- verify_vtn_indices is ;;
    if negb ok then
      error EveryVTNIndexMustHaveTheSameFormForAGivenElement msg_face_form
    else triangulate false els is.

Lemma acc_face_end : forall base els rs,
  acc fuel (face_end els (map (local_ref base) rs))
    (fun ts r rest => 3 <= length rs /\ same_form rs /\ rest = ts /\ r = pushed base els (SFace rs)).
Proof.
  intros base els rs. unfold face_end. rewrite map_length. destruct (Nat.ltb_spec (length rs) 3) as [Hl|Hl].
  - eapply acc_iff; [|apply acc_error]. intros ts r rest _. split; [intros []|]. lia.
  - destruct rs as [|r1 [|r2 [|r3 rs]]]; cbn in Hl; try lia.
    destruct (returns_verify base r1 (r2 :: r3 :: rs)) as (b & Hb & Hf).
    eapply acc_bind_returns; [exact Hb|]. destruct b; cbn [negb].
    + eapply acc_iff; [|apply acc_returns, returns_triangulate]. intros ts r rest _. unfold r_ret. split.
      * intros [-> ->]. repeat split; auto. now apply Hf.
      * intros (_ & _ & -> & ->). auto.
    + eapply acc_iff; [|apply acc_error]. intros ts r rest _. split; [intros []|].
      intros (_ & H & _). apply Hf in H. discriminate.
Qed.

Lemma bad_face_end : forall base els rs,
  bad fuel (face_end els (map (local_ref base) rs))
    (lift (fun ts c rest => rest = ts /\
       ((length rs < 3 /\ c = (EveryFaceElementMustHaveAtLeastThreeVertices, msg_few)) \/
        (3 <= length rs /\ ~ same_form rs /\
         c = (EveryVTNIndexMustHaveTheSameFormForAGivenElement, msg_face_form))))).
Proof.
  intros base els rs. unfold face_end. rewrite map_length. destruct (Nat.ltb_spec (length rs) 3) as [Hl|Hl].
  - eapply bad_iff; [|apply bad_error]. intros ts r rest _. split.
    + intros [-> ->]. eexists (_, _). split; [reflexivity|]. auto.
    + intros (c & -> & -> & [[_ ->]|[H _]]); [auto|lia].
  - destruct rs as [|r1 [|r2 [|r3 rs]]]; cbn in Hl; try lia.
    destruct (returns_verify base r1 (r2 :: r3 :: rs)) as (b & Hb & Hf).
    eapply bad_bind_returns; [exact Hb|]. destruct b; cbn [negb].
    + eapply bad_iff; [|eapply bad_returns, returns_triangulate]. intros ts r rest _. split; [intros []|].
      intros (c & -> & -> & [[H _]|(_ & H & _)]); [cbn in H; lia|]. apply H. now apply Hf.
    + eapply bad_iff; [|apply bad_error]. intros ts r rest _. split.
      * intros [-> ->]. eexists (_, _). split; [reflexivity|]. split; auto. right. repeat split; auto.
        intros H. apply Hf in H. discriminate.
      * intros (c & -> & -> & [[H _]|(_ & H & ->)]); [cbn in H; lia|]. auto.
Qed.

Lemma parse_face_eq : forall base now els,
  parse_face false fuel els (v_range base now) (t_range base now) (n_range base now) =
  (expect_tag (lit "f") ;;;
   '(_, is) <- parse_vtn_indices false fuel [] (v_range base now) (t_range base now) (n_range base now) ;;
   face_end els is).
Proof. reflexivity. Qed.

Lemma acc_parse_face : forall base now els, small_counts now ->
  acc fuel (parse_face false fuel els (v_range base now) (t_range base now) (n_range base now))
    (fun ts r rest => exists rs, reads_statement base now ts (SFace rs) rest /\ r = pushed base els (SFace rs)).
Proof.
  intros base now els Hs. rewrite parse_face_eq.
  eapply acc_iff; [|eapply acc_bind; [apply acc_expect_tag|intros ?];
    eapply acc_bind_map; [now apply acc_parse_refs|intros ? rs ? _]; apply acc_face_end].
  intros ts r rest _. split.
  - intros ([] & m1 & -> & rs & m2 & H & Hl & Hf & -> & ->). exists rs. split; auto. now constructor.
  - intros (rs & H & ->). inversion H as [| | | | | | | |ts0 ? ? H1 H2 H3]; subst.
    exists tt, ts0. split; auto. exists rs, rest. auto.
Qed.

Lemma bad_parse_face : forall base now els, small_counts now ->
  bad fuel (parse_face false fuel els (v_range base now) (t_range base now) (n_range base now))
    (fails_with "f" (fails_statement base now)).
Proof.
  intros base now els Hs. rewrite parse_face_eq.
  eapply bad_iff; [|eapply bad_bind; [apply acc_expect_tag|apply bad_expect_tag|intros ?];
    eapply bad_bind_map; [now apply acc_parse_refs|now apply bad_parse_refs|intros ? rs ? _]; apply bad_face_end].
  intros ts b rest _. split.
  - intros [(c & -> & H)|([] & m1 & -> & [[]|(rs & m2 & H & c & -> & -> & [[Hl ->]|(Hl & Hf & ->)])])];
      apply lift_fails; auto; right; split; auto.
    + eapply fails_f_few; eauto.
    + eapply fails_f_form; eauto.
  - intros (c & -> & [H|[H1 H2]]); [now_bad|].
    right. inv_fails H1 H2; exists tt; eexists; (split; [reflexivity|]); right; exists rs, rest; (split; [auto|]);
      eexists (_, _); (split; [reflexivity|]); auto.
Qed.

(** ** All elements *)

Lemma acc_parse_elements : forall base now els, small_counts now ->
  acc fuel (parse_elements false fuel els (v_range base now) (t_range base now) (n_range base now))
    (fun ts r rest => exists s, is_element s = true /\ reads_statement base now ts s rest /\ r = pushed base els s).
Proof.
  intros base now els Hs. unfold parse_elements.
  eapply acc_iff; [|eapply acc_bind; [apply acc_peek|intros t];
    eapply acc_if; [now apply acc_parse_point|eapply acc_if; [now apply acc_parse_line|eapply acc_if; [now apply acc_parse_face|apply acc_error]]]].
  intros ts r rest _. split.
  - intros (t & mid & [-> ->] & H).
    destruct (is_tok (hd_error ts) "p").
    { destruct H as (ks & H & ->). exists (SPoint ks). repeat split; auto. unfold pushed. cbn. now rewrite map_length. }
    destruct (is_tok (hd_error ts) "l"); [destruct H as (rs & H & ->); exists (SLine rs); auto|].
    destruct (is_tok (hd_error ts) "f"); [destruct H as (rs & H & ->); exists (SFace rs); auto|]. destruct H.
  - intros (s & Hs' & H & ->). exists (hd_error ts), ts. split; [split; auto|].
    destruct s; try discriminate; inversion H; subst; eval_eqb.
    + exists ks. split; auto. unfold pushed. cbn. now rewrite map_length.
    + eauto.
    + eauto.
Qed.

Lemma bad_parse_elements : forall base now els, small_counts now ->
  bad fuel (parse_elements false fuel els (v_range base now) (t_range base now) (n_range base now))
    (lift (fun ts c rest =>
       match ts with
       | t :: _ => if bytes_eqb t (lit "p") || bytes_eqb t (lit "l") || bytes_eqb t (lit "f")
                   then fails_statement base now ts c rest
                   else rest = ts /\ fst c = ElementMustBeAPointLineOrFace /\
                        snd c = lit "An element must be a point (`p`), line (`l`), or face (`f`)."
       | [] => rest = ts /\ fst c = ElementMustBeAPointLineOrFace /\
               snd c = lit "An element must be a point (`p`), line (`l`), or face (`f`)."
       end)).
Proof.
  intros base now els Hs. unfold parse_elements.
  eapply bad_iff; [|eapply bad_bind; [apply acc_peek|apply bad_peek|intros t];
    eapply bad_if; [now apply bad_parse_point|eapply bad_if; [now apply bad_parse_line|eapply bad_if; [now apply bad_parse_face|apply bad_error]]]].
  intros ts b rest _. split.
  - intros [[]|(t & mid & [-> ->] & H)]. destruct ts as [|t ts].
    { destruct H as [-> ->]. eexists (_, _). split; [reflexivity|]. auto. }
    cbn [hd_error is_tok] in H.
    destruct (bytes_eqb_spec t (lit "p")) as [->|Hp].
    { destruct H as (c & -> & [H|[_ H]]); [exfalso; eapply not_tag_head; [|eauto]; reflexivity|]. exists c. auto. }
    destruct (bytes_eqb_spec t (lit "l")) as [->|Hl].
    { destruct H as (c & -> & [H|[_ H]]); [exfalso; eapply not_tag_head; [|eauto]; reflexivity|]. exists c. auto. }
    destruct (bytes_eqb_spec t (lit "f")) as [->|Hf].
    { destruct H as (c & -> & [H|[_ H]]); [exfalso; eapply not_tag_head; [|eauto]; reflexivity|]. exists c. auto. }
    destruct H as [-> ->]. eexists (_, _). split; [reflexivity|]. cbn.
    rewrite (proj2 (bytes_eqb_neq _ _) Hp), (proj2 (bytes_eqb_neq _ _) Hl), (proj2 (bytes_eqb_neq _ _) Hf). cbn. auto.
  - intros (c & -> & H). right. exists (hd_error ts), ts. split; [split; auto|]. destruct ts as [|t ts].
    { destruct H as (-> & -> & ->). cbn. auto. }
    cbn [hd_error is_tok].
    destruct (bytes_eqb_spec t (lit "p")) as [->|Hp].
    { exists c. auto. }
    destruct (bytes_eqb_spec t (lit "l")) as [->|Hl].
    { exists c. auto. }
    destruct (bytes_eqb_spec t (lit "f")) as [->|Hf].
    { exists c. auto. }
    cbn in H. destruct H as (-> & -> & ->). auto.
Qed.

(** ** Groups, smoothing groups, materials *)

Lemma acc_parse_groups : forall base now gs,
  acc fuel (parse_groups fuel gs)
    (fun ts r rest => exists names, reads_statement base now ts (SGroup names) rest /\ r = (length names, gs ++ names)).
Proof.
  intros base now gs. unfold parse_groups.
  eapply acc_iff; [|eapply acc_bind; [apply acc_expect_tag|intros ?; apply acc_names_until_newline]].
  intros ts r rest _. split.
  - intros H. crush. eexists; split; [constructor; eauto|auto].
  - intros (names & H & ->). inversion H; subst. exists tt, ts0. split; eauto.
Qed.

Lemma bad_parse_groups : forall base now gs,
  bad fuel (parse_groups fuel gs) (fails_with "g" (fails_statement base now)).
Proof.
  intros base now gs. unfold parse_groups.
  eapply bad_iff; [|eapply bad_bind; [apply acc_expect_tag|apply bad_expect_tag|intros ?; apply bad_names_until_newline]].
  intros ts b rest _. split.
  - intros H. crush. apply lift_fails; auto.
  - intros (c & -> & [H|[H1 H2]]); [now_bad|]. inv_fails H1 H2.
Qed.

Lemma smoothing_iff : forall t n, smoothing_token t n <->
  (if bytes_eqb t (lit "off") then n = 0%N else RustStd.parse_usize t = Some n).
Proof.
  intros t n. destruct (bytes_eqb_spec t (lit "off")) as [->|H]; split; intros H'.
  - inversion H'; subst; auto. discriminate.
  - subst. constructor.
  - inversion H'; subst; auto. congruence.
  - now constructor.
Qed.

Lemma acc_parse_smoothing : forall base now gs,
  acc fuel (parse_smoothing_group gs)
    (fun ts r rest => exists n, reads_statement base now ts (SSmooth n) rest /\ r = (1, gs ++ [n])).
Proof.
  intros base now gs. unfold parse_smoothing_group. eapply acc_iff; [|run].
  intros ts r rest _. split.
  - intros ([] & m & -> & t & m' & [-> ->] & H). destruct m as [|t m]; [destruct H|]. cbn in H.
    destruct (bytes_eqb_spec t (lit "off")) as [->|Hn].
    + destruct H as [-> ->]. exists 0%N. split; auto. constructor. apply smoothing_iff. now rewrite bytes_eqb_refl.
    + destruct (parse_usize t) as [n|] eqn:E; [|destruct H]. destruct H as [-> ->]. exists n. split; auto.
      constructor. now constructor.
  - intros (n & H & ->). inversion H as [| | | |t ? ? Ht| | | |]; subst. exists tt, (t :: rest). split; auto.
    exists (Some t), rest. split; [split; auto|]. apply smoothing_iff in Ht.
    destruct (bytes_eqb t (lit "off")); [subst; split; auto|]. rewrite Ht. split; auto.
Qed.

Lemma bad_parse_smoothing : forall base now gs,
  bad fuel (parse_smoothing_group gs) (fails_with "s" (fails_statement base now)).
Proof.
  intros base now gs. unfold parse_smoothing_group. eapply bad_iff; [|run].
  intros ts b rest _. split.
  - intros [(c & -> & H)|([] & m & -> & [[]|(t & m' & [-> ->] & H)])]; [apply lift_fails; auto|].
    destruct m as [|t m]; cbn in H.
    { destruct H as [-> ->]. eexists (_, _). split; [|right; split; [reflexivity|apply fails_s_eof]]. reflexivity. }
    destruct (bytes_eqb_spec t (lit "off")) as [->|Hn]; [destruct H|].
    destruct (parse_usize t) as [n|] eqn:E; [destruct H|]. destruct H as [-> ->].
    eexists (_, _). split; [|right; split; [reflexivity|apply fails_s]]; [reflexivity|].
    intros n Ht. apply smoothing_iff in Ht. rewrite (proj2 (bytes_eqb_neq _ _) Hn) in Ht. congruence.
  - intros (c & -> & [H|[H1 H2]]); [now_bad|].
    right. inv_fails H1 H2; exists tt; eexists; (split; [reflexivity|]); right.
    + exists None, []. split; [split; auto|]. split; auto.
    + exists (Some t), rest. split; [split; auto|]. 
      destruct (bytes_eqb_spec t (lit "off")) as [->|Hn]; [exfalso; eapply H; constructor|].
      destruct (parse_usize t) as [n|] eqn:E; [exfalso; eapply H; constructor; eauto|]. split; auto.
Qed.

Lemma acc_parse_material : forall base now ms,
  acc fuel (parse_material_name ms)
    (fun ts r rest => exists m, reads_statement base now ts (SUse m) rest /\ r = (1, ms ++ [Some m])).
Proof.
  intros base now ms. unfold parse_material_name. eapply acc_iff; [|run].
  intros ts r rest _. split.
  - intros ([] & m & -> & t & m' & [-> ->] & H). destruct m as [|t m]; [destruct H|]. cbn in H.
    destruct H as [-> ->]. exists t. split; auto. constructor.
  - intros (n & H & ->). inversion H; subst. exists tt, (n :: rest). split; auto.
    exists (Some n), rest. split; split; auto.
Qed.

Lemma bad_parse_material : forall base now ms,
  bad fuel (parse_material_name ms) (fails_with "usemtl" (fails_statement base now)).
Proof.
  intros base now ms. unfold parse_material_name. eapply bad_iff; [|run].
  intros ts b rest _. split.
  - intros [(c & -> & H)|([] & m & -> & [[]|(t & m' & [-> ->] & H)])]; [apply lift_fails; auto|].
    destruct m as [|t m]; cbn in H; [|destruct H].
    destruct H as [-> ->]. eexists (_, _). split; [|right; split; [reflexivity|apply fails_usemtl]]. reflexivity.
  - intros (c & -> & [H|[H1 H2]]); [now_bad|].
    right. inv_fails H1 H2; exists tt; eexists; (split; [reflexivity|]); right.
    exists None, []. split; split; auto.
Qed.

End Elements.
