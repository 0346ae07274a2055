(** How often the parser of src/obj.rs asks for the same token. *)
From Coq Require Import Lia.
From Verif Require Import ObjModel SourceProofs LogSpec LogProofs.
Local Open Scope list_scope.

Section Obj.
Context (dbg : bool) (fuel : nat).
Notation OM := (M llist error_kind).
Notation most := 8.
Notation lasts := (lasts 8).

Lemma lasts_next_string : forall P c x, 1 <= c -> x <= most -> lasts P c (fun _ => most) x (next_string : OM _).
Proof. intros. unfold next_string. lasts. Qed.
Hint Resolve lasts_next_string : last.

Lemma lasts_expect_tag : forall tag P c x, 1 <= c -> x <= most -> lasts P c (fun _ => most) x (expect_tag tag : OM _).
Proof. intros. unfold expect_tag. lasts. Qed.
Hint Resolve lasts_expect_tag : last.

Lemma lasts_parse_f64 : forall P c x, 1 <= c -> x <= most -> lasts P c (fun _ => most) x (parse_f64 : OM _).
Proof. intros. unfold parse_f64. lasts. Qed.
Hint Resolve lasts_parse_f64 : last.

Lemma lasts_parse_isize : forall P c x, 1 <= c -> x <= most -> lasts P c (fun _ => most) x (parse_isize : OM _).
Proof. intros. unfold parse_isize, error_expected_integer. lasts. Qed.
Hint Resolve lasts_parse_isize : last.

Lemma lasts_try_once : forall T (f : bytes -> option T) P c x, 2 <= c -> c <= most -> lasts P c (fun _ => c - 1) x (try_once f : OM _).
Proof. intros. unfold try_once. lasts. Qed.
Hint Resolve lasts_try_once : last.

Lemma lasts_parse_vertex : forall P c, 1 <= c -> lasts P c (fun _ => 7) 0 (parse_vertex : OM _).
Proof. intros. unfold parse_vertex. lasts. Qed.
Lemma lasts_parse_texture_vertex : forall P c, 1 <= c -> lasts P c (fun _ => 6) 0 (parse_texture_vertex : OM _).
Proof. intros. unfold parse_texture_vertex. lasts. Qed.
Lemma lasts_parse_normal_vertex : forall P c, 1 <= c -> lasts P c (fun _ => most) 0 (parse_normal_vertex : OM _).
Proof. intros. unfold parse_normal_vertex. lasts. Qed.
Hint Resolve lasts_parse_vertex lasts_parse_texture_vertex lasts_parse_normal_vertex : last.

Lemma lasts_skip1 : forall P c, 1 <= c -> lasts P c (fun _ => 7) 0 (skip_one_or_more_newlines fuel : OM _).
Proof. intros. unfold skip_one_or_more_newlines. lasts. Qed.
Hint Resolve lasts_skip1 : last.

(** Resolving an index does not look at the tokens. *)
Lemma lasts_calculate_index : forall r v P c x, x <= c -> lasts P c (fun _ => c) x (calculate_index dbg r v : OM _).
Proof.
  intros [lo hi] v P c x H. unfold calculate_index.
  eapply lasts_bind; [destruct (v <=? 0)%Z; apply lasts_isize_sub|]. intro y.
  destruct ((Z.of_nat lo <=? y) && (y <? Z.of_nat hi))%Z; lasts.
Qed.
Hint Resolve lasts_calculate_index : last.

Lemma lasts_process_next : forall l r P c x, x <= c -> lasts P c (fun _ => c) x (process_next dbg l r : OM _).
Proof.
  intros [|s l] r P c x H; [apply lasts_ret; auto|]. unfold process_next.
  eapply lasts_bind with (d := fun _ => c); [|intro; apply lasts_ret; lia].
  unfold process_split, error_expected_integer. destruct s; [apply lasts_ret; auto|].
  destruct (RustStd.parse_isize _); lasts.
Qed.
Hint Resolve lasts_process_next : last.

Lemma lasts_vtn_index : forall a b c P k x, 1 <= k -> x <= most -> lasts P k (fun _ => most) x (parse_vtn_index dbg a b c : OM _).
Proof.
  intros. unfold parse_vtn_index. last_step.
  eapply lasts_bind; [apply lasts_process_next; lia|intros [s1 ?]].
  eapply lasts_bind; [apply lasts_process_next; lia|intros [s2 ?]].
  eapply lasts_bind; [apply lasts_process_next; lia|intros [s3 ?]].
  destruct (_ || _); [apply lasts_error; lia|].
  destruct s1, s2, s3; lasts.
Qed.
Hint Resolve lasts_vtn_index : last.

Lemma lasts_vtn_indices : forall l a b c P, lasts P most (fun _ => most) 0 (parse_vtn_indices dbg fuel l a b c : OM _).
Proof.
  intros. unfold parse_vtn_indices. apply lasts_loop. intros [n v].
  eapply lasts_bind; [apply lasts_catch; apply lasts_vtn_index with (x := most); lia|]. intros [i|e]; lasts.
Qed.
Hint Resolve lasts_vtn_indices : last.

Lemma lasts_parse_point : forall e r P c, 1 <= c -> lasts P c (fun _ => most) 0 (parse_point dbg fuel e r : OM _).
Proof.
  intros. unfold parse_point, error_expected_integer. do 3 last_step.
  apply lasts_loop. intros [n el]. lasts.
Qed.

Lemma lasts_verify : forall l P c x, lasts P c (fun _ => c) x (verify_vtn_indices l : OM _).
Proof.
  intros. unfold verify_vtn_indices. apply lasts_for_each. intros [] i; lasts.
Qed.
Hint Resolve lasts_verify : last.

Lemma lasts_parse_line : forall e a b c P k, 1 <= k -> lasts P k (fun _ => most) 0 (parse_line dbg fuel e a b c : OM _).
Proof.
  intros. unfold parse_line. do 4 last_step. match goal with |- lasts _ _ _ _ (let (_, _) := ?x in _) => destruct x as [? l] end.
  last_step. destruct (negb _); [lasts|]. last_step.
  eapply lasts_bind; [apply lasts_for_each; intros el i; lasts|]. intro. lasts.
Qed.

Lemma lasts_parse_face : forall e a b c P k, 1 <= k -> lasts P k (fun _ => most) 0 (parse_face dbg fuel e a b c : OM _).
Proof.
  intros. unfold parse_face. do 2 last_step. match goal with |- lasts _ _ _ _ (let (_, _) := ?x in _) => destruct x as [? l] end.
  destruct (_ <? 3); [lasts|]. last_step. destruct (negb _); [lasts|]. unfold triangulate. do 2 last_step.
  eapply lasts_bind; [apply lasts_for_each; intros el i; lasts|]. intro. lasts.
Qed.
Hint Resolve lasts_parse_point lasts_parse_line lasts_parse_face : last.

Lemma lasts_elements : forall e a b c P k, 2 <= k -> lasts P k (fun _ => most) 0 (parse_elements dbg fuel e a b c : OM _).
Proof. intros. unfold parse_elements. lasts. Qed.

Lemma lasts_names : forall l P, lasts P most (fun _ => most) 0 (names_until_newline fuel l : OM _).
Proof. intros. unfold names_until_newline. apply lasts_loop. intros [n ns]. lasts. Qed.
Hint Resolve lasts_elements lasts_names : last.

Lemma lasts_groups : forall l P c, 1 <= c -> lasts P c (fun _ => most) 0 (parse_groups fuel l : OM _).
Proof. intros. unfold parse_groups. lasts. Qed.
Lemma lasts_smoothing : forall l P c, 1 <= c -> lasts P c (fun _ => most) 0 (parse_smoothing_group l : OM _).
Proof. intros. unfold parse_smoothing_group. lasts. Qed.
Lemma lasts_material : forall l P c, 1 <= c -> lasts P c (fun _ => most) 0 (parse_material_name l : OM _).
Proof. intros. unfold parse_material_name. lasts. Qed.
Hint Resolve lasts_groups lasts_smoothing lasts_material : last.

Lemma lasts_object_g : forall g P c, 1 <= c -> lasts P c (fun _ => 6) 0 (parse_object_g fuel g : OM _).
Proof. intros. unfold parse_object_g. destruct (groups g); lasts. Qed.
Lemma lasts_object_s : forall s P c, 1 <= c -> lasts P c (fun _ => 6) 0 (parse_object_s s : OM _).
Proof. intros. unfold parse_object_s. destruct (smoothing_groups s); lasts. Qed.
Lemma lasts_object_usemtl : forall m P c, 1 <= c -> lasts P c (fun _ => 6) 0 (parse_object_usemtl m : OM _).
Proof. intros. unfold parse_object_usemtl. cbv zeta. destruct (material_names m); lasts. Qed.
Lemma lasts_object_v : forall st P c, 1 <= c -> lasts P c (fun _ => 6) 0 (parse_object_v st : OM _).
Proof. intros. unfold parse_object_v. lasts. Qed.
Lemma lasts_object_vt : forall st P c, 1 <= c -> lasts P c (fun _ => 6) 0 (parse_object_vt st : OM _).
Proof. intros. unfold parse_object_vt. lasts. Qed.
Lemma lasts_object_vn : forall st P c, 1 <= c -> lasts P c (fun _ => 6) 0 (parse_object_vn st : OM _).
Proof. intros. unfold parse_object_vn. lasts. Qed.
Lemma lasts_object_element : forall st P c, 2 <= c -> lasts P c (fun _ => 6) 0 (parse_object_element dbg fuel st : OM _).
Proof. intros. unfold parse_object_element. cbv zeta. lasts. Qed.
Hint Resolve lasts_object_g lasts_object_s lasts_object_usemtl lasts_object_v lasts_object_vt
  lasts_object_vn lasts_object_element : last.

(** A round of the loop over the statements of an object. *)
Lemma lasts_body : forall st P c, 3 <= c -> c <= 6 -> lasts P c
  (fun s => match s with Continue _ => 6 | Break _ => c - 1 end) 0 (parse_object_body dbg fuel st : OM _).
Proof. intros. unfold parse_object_body. lasts. Qed.

Lemma lasts_body_loop : forall st P, lasts P 6 (fun _ => 5) 0 (loop fuel (parse_object_body dbg fuel) st : OM _).
Proof.
  intros. apply lasts_loop. intro. eapply lasts_weaken; [apply lasts_body with (P := any) (c := 6); lia|auto|auto|intros []; cbn; lia|auto].
Qed.

Lemma lasts_shape_entries : forall e g s P c x, lasts P c (fun _ => c) x (parse_shape_entries dbg e g s : OM _).
Proof.
  intros. unfold parse_shape_entries.
  eapply lasts_bind; [apply lasts_for_each; intros t [[? ?] [? ?]]; apply lasts_for_each; intros; lasts|]. intro. last_step.
  eapply lasts_bind; [apply lasts_for_each; intros t [[? ?] ?]; apply lasts_for_each; intros; lasts|]. intro. lasts.
Qed.

Lemma lasts_geometries : forall t m P c x, lasts P c (fun _ => c) x (parse_geometries t m : OM _).
Proof.
  intros. unfold parse_geometries. apply lasts_for_each. intros g [[? ?] ?]. lasts.
Qed.
Hint Resolve lasts_shape_entries lasts_geometries : last.

(** The first statement of an object without an [o]. *)
Lemma lasts_first : forall st (P : _ -> Prop) c, 3 <= c -> (forall ts, P ts -> ts <> [] /\ hd_error ts <> Some (lit "o")) ->
  lasts P c (fun s => match s with Continue _ => 6 | Break _ => 6 end) 0 (parse_object_body dbg fuel st : OM _).
Proof.
  intros st P c Hc HP. unfold parse_object_body. apply lasts_peek; [lia|]. intro t.
  repeat match goal with |- lasts _ _ _ _ (if ?x then _ else _) => destruct x; [solve [lasts]|] end.
  destruct t as [t|].
  - destruct (bytes_eqb t (lit "o")) eqn:E; [|apply lasts_error; lia].
    apply bytes_eqb_eq in E. subst. apply lasts_absurd. intros ts [H1 H2]. now elim (proj2 (HP _ H1)).
  - apply lasts_absurd. intros [|x ts] [H1 H2]; [|discriminate]. now elim (proj1 (HP _ H1)).
Qed.

(** An object takes a token: its [o], or its first statement. *)
Definition at_end (ts : list bytes) : Prop := hd_error ts = None \/ hd_error ts = Some (lit "o").

Lemma lasts_object_o : forall r (P : _ -> Prop) c, 2 <= c -> (forall ts, P ts -> hd_error ts = Some (lit "o")) ->
  lasts P c (fun _ => 5) 0 (parse_object dbg fuel r : OM _).
Proof.
  intros r P c Hc HP. unfold parse_object, parse_object_name. apply lasts_assoc.
  apply lasts_peek; [lia|]. intros t. destruct (is_tok t "o") eqn:Eo.
  - eapply lasts_bind with (d := fun _ => 6).
    { last_step. last_step.
      - last_step. last_step.
      - last_step. last_step. }
    intro nm. eapply lasts_bind; [apply lasts_body_loop|intro st]. lasts.
  - apply lasts_absurd. intros ts [H1 H2]. apply HP in H1. rewrite H1 in H2. subst t. discriminate Eo.
Qed.

Lemma lasts_object : forall r (P : _ -> Prop) c, 4 <= c -> (forall ts, P ts -> ts <> []) ->
  lasts P c (fun _ => 5) 0 (parse_object dbg fuel r : OM _).
Proof.
  intros r P c Hc HP. unfold parse_object, parse_object_name. apply lasts_assoc.
  apply lasts_peek; [lia|]. intros t. destruct (is_tok t "o") eqn:Eo.
  - eapply lasts_bind with (d := fun _ => 6).
    { last_step. last_step.
      - last_step. last_step.
      - last_step. last_step. }
    intro nm. eapply lasts_bind; [apply lasts_body_loop|intro st]. lasts.
  - apply lasts_ret_bind. eapply lasts_bind with (d := fun _ => 5); [|intro st; lasts].
    destruct fuel as [|n] eqn:Ef; [apply lasts_diverge|]. cbn [loop]. rewrite <- Ef.
    eapply lasts_bind; [apply lasts_first; [lia|]|].
    { intros ts [H1 H2]. split; auto. rewrite H2. intros ->.
      unfold is_tok in Eo. rewrite bytes_eqb_refl in Eo. discriminate. }
    intros [st'|b]; [|apply lasts_ret; lia].
    apply lasts_loop. intro. eapply lasts_weaken; [apply lasts_body with (P := any) (c := 6); lia|auto|auto|intros []; cbn; lia|auto].
Qed.

(** Behind an object there is the end or the next [o]. *)
Definition still {A} (m : OM A) : Prop := forall p, snd (m p) = p.

Lemma still_bind : forall A B (m : OM A) (f : A -> OM B), still m -> (forall a, still (f a)) -> still (bind m f).
Proof.
  intros A B m f Hm Hf p. specialize (Hm p). unfold bind. destruct (m p) as [[a|y|y|] q]; cbn [snd] in *; subst; auto. apply Hf.
Qed.

Lemma still_for_each : forall A X (body : A -> X -> OM A) xs, (forall a y, still (body a y)) -> forall a, still (for_each xs body a).
Proof.
  intros A X body xs H. induction xs as [|y xs IH]; intros a; [intros p; reflexivity|]. cbn [for_each]. now apply still_bind.
Qed.

Lemma still_index : forall A (v : list A) i, still (index v i).
Proof. intros A v i p. unfold index. now destruct (nth_error v i). Qed.

Lemma still_assert : forall b, still (debug_assert dbg b).
Proof. intros b p. unfold debug_assert. now destruct (dbg && negb b). Qed.

Lemma still_shape_entries : forall e g s, still (parse_shape_entries dbg e g s).
Proof.
  intros. unfold parse_shape_entries. apply still_bind.
  { apply still_for_each. intros t [[? ?] [? ?]]. apply still_for_each. intros a y p. reflexivity. }
  intro. apply still_bind; [apply still_assert|]. intro. apply still_bind.
  { apply still_for_each. intros t [[? ?] ?]. apply still_for_each. intros w y. apply still_bind; [apply still_index|]. intros z p. reflexivity. }
  intro. apply still_bind; [apply still_assert|]. intros z p. reflexivity.
Qed.

Lemma still_geometries : forall t m, still (parse_geometries t m).
Proof.
  intros. unfold parse_geometries. apply still_for_each. intros g [[? ?] ?]. apply still_bind; [apply still_index|]. intros z p. reflexivity.
Qed.

Lemma bind_ok : forall A B (m : OM A) (f : A -> OM B) p b, fst (bind m f p) = Ok b ->
  exists a, fst (m p) = Ok a /\ fst (f a (snd (m p))) = Ok b /\ snd (bind m f p) = snd (f a (snd (m p))).
Proof.
  intros A B m f p b H. unfold bind in *. destruct (m p) as [[a|y|y|] q]; cbn [fst snd] in *; try discriminate. eauto.
Qed.

Lemma body_end : forall st p b, fst (parse_object_body dbg fuel st p : _) = Ok (Break b) -> at_end (remaining (snd (parse_object_body dbg fuel st p))).
Proof.
  intros st p b. unfold parse_object_body. generalize (fun t => @eq_refl _ (is_tok t "o")). intros _ H.
  apply bind_ok in H. destruct H as (t & Et & H & ->).
  assert (T : t = hd_error (remaining p) /\ remaining (snd (peek (K := error_kind) p)) = remaining p).
  { unfold peek in *. destruct p as [line [ts l]]. destruct ts; cbn in *; injection Et as <-; auto. }
  destruct T as [T Es]. set (q := snd (peek p)) in *. clearbody q. unfold at_end.
  repeat match type of H with
  | fst ((if ?x then _ else _) q) = _ => let E := fresh in destruct x eqn:E;
      [exfalso; try (apply bind_ok in H; destruct H as (? & _ & H & _)); discriminate H|]
  end.
  destruct t as [t|].
  - destruct (bytes_eqb t (lit "o")) eqn:E; [|discriminate H]. apply bytes_eqb_eq in E. subst t. cbn [ret snd]. rewrite Es, <- T. now right.
  - cbn [ret snd]. rewrite Es, <- T. now left.
Qed.

Lemma loop_end : forall n st p st', fst (loop n (parse_object_body dbg fuel) st p : _) = Ok st' ->
  at_end (remaining (snd (loop n (parse_object_body dbg fuel) st p))).
Proof.
  induction n as [|n IH]; intros st p st' H; [discriminate H|]. cbn [loop] in *. apply bind_ok in H. destruct H as ([st1|b] & E & H & ->).
  - eapply IH; eauto.
  - cbn [ret snd]. eapply body_end; eauto.
Qed.

Lemma object_end : forall r p or, fst (parse_object dbg fuel r p : _) = Ok or -> at_end (remaining (snd (parse_object dbg fuel r p))).
Proof.
  intros r p or H. unfold parse_object in *. apply bind_ok in H. destruct H as (nm & _ & H & ->). apply bind_ok in H. destruct H as (st & E & H & ->).
  apply bind_ok in H. destruct H as (sh & _ & H & ->). rewrite still_shape_entries in *. apply bind_ok in H. destruct H as (ge & _ & H & ->).
  rewrite still_geometries in *. cbn [ret snd]. eapply loop_end; eauto.
Qed.

Lemma skip_end : forall n p, at_end (remaining p) -> at_end (remaining (snd (skip_zero_or_more_newlines (K := error_kind) n p : _ * parser llist))).
Proof.
  intros n [line [ts l]] H. unfold at_end in *. unfold remaining, places in *. cbn [lexer_state fst] in *. unfold skip_zero_or_more_newlines. destruct n as [|n]; [exact H|]. cbn [loop].
  unfold bind at 1. unfold bind, peek. cbn. destruct ts as [|[t m] ts]; cbn in *; [now left|]. destruct H as [H|H]; [discriminate|]. injection H as ->.
  change (bytes_eqb (lit "o") nl) with false. cbn. now right.
Qed.

Lemma lasts_bind_end : forall A B (m : OM A) (f : A -> OM B) (P Q : _ -> Prop) c d e x,
  lasts P c d x m -> (forall p a, P (remaining p) -> fst (m p) = Ok a -> Q (remaining (snd (m p)))) ->
  (forall a, lasts Q (d a) e x (f a)) -> lasts P c e x (bind m f).
Proof.
  intros A B m f P Q c d e x Hm HQ Hf all p j Hp Ha Hj. destruct (Hm all p j Hp Ha Hj) as (j' & Ha' & Hd). specialize (HQ p). unfold bind.
  destruct (m p) as [[a|y|y|] q]; cbn [fst snd] in *; try (exists j'; auto; fail).
  exact (Hf a all q j' (HQ a Hp eq_refl) Ha' Hd).
Qed.

(** The loop over the objects behind the first one. *)
Lemma lasts_more : forall n l (P : _ -> Prop), (forall ts, P ts -> at_end ts) -> lasts P 4 (fun _ => 0) 0
  (loop n (fun '(result, r) =>
    t <- peek ;;
    match t with
    | Some _ =>
        '(o, r') <- parse_object dbg fuel r ;;
        skip_zero_or_more_newlines fuel ;;;
        ret (Continue (result ++ [o], r'))
    | None => ret (Break result)
    end) l : OM _).
Proof.
  induction n as [|n IH]; intros [res r] P HP; [apply lasts_diverge|]. cbn [loop]. apply lasts_assoc. apply lasts_peek; [lia|].
  intros [t|]; [|apply lasts_ret_bind; apply lasts_ret; lia]. apply lasts_assoc.
  eapply lasts_bind_end with (d := fun _ => 5) (Q := at_end); [apply lasts_object_o; [lia|]|intros; eapply object_end; eauto|].
  { intros ts [H1 H2]. apply HP in H1. destruct H1 as [H1|H1]; congruence. }
  intros [o r']. apply lasts_assoc.
  eapply lasts_bind_end with (d := fun _ => 4) (Q := at_end); [apply lasts_skip with (c := 5); lia|intros; now apply skip_end|].
  intros _. apply lasts_ret_bind. now apply IH.
Qed.

Lemma lasts_objects : forall P, lasts P 6 (fun _ => 0) 0 (parse_objects dbg fuel : OM _).
Proof.
  intros P. unfold parse_objects. eapply lasts_bind with (d := fun _ => 5); [apply lasts_skip with (c := 6); lia|]. intros _.
  assert (H : forall n, lasts any 5 (fun _ => 0) 0 (loop n (fun '(result, r) =>
    t <- peek ;;
    match t with
    | Some _ =>
        '(o, r') <- parse_object dbg fuel r ;;
        skip_zero_or_more_newlines fuel ;;;
        ret (Continue (result ++ [o], r'))
    | None => ret (Break result)
    end) ([], mkIndexRanges 0 0 0 0 0 0) : OM _)); [|apply H].
  destruct n as [|n]; [apply lasts_diverge|]. cbn [loop]. apply lasts_assoc. apply lasts_peek; [lia|].
  intros [t|]; [|apply lasts_ret_bind; apply lasts_ret; lia]. apply lasts_assoc.
  eapply lasts_bind_end with (d := fun _ => 5) (Q := at_end); [apply lasts_object; [lia|]|intros; eapply object_end; eauto|].
  { intros ts [_ H2] ->. discriminate. }
  intros [o r']. apply lasts_assoc.
  eapply lasts_bind_end with (d := fun _ => 4) (Q := at_end); [apply lasts_skip with (c := 5); lia|intros; now apply skip_end|].
  intros _. apply lasts_ret_bind. now apply lasts_more.
Qed.

Lemma lasts_libraries : forall P, lasts P 8 (fun _ => 6) 0 (parse_material_libraries fuel : OM _).
Proof.
  intros P. unfold parse_material_libraries. eapply lasts_bind with (d := fun _ => 7); [apply lasts_skip with (c := 8); lia|]. intros _.
  apply lasts_loop. intro libs. apply lasts_peek; [lia|]. intro t. destruct (is_tok t "mtllib"); [|apply lasts_ret; lia].
  eapply lasts_bind with (d := fun _ => 8).
  - unfold parse_material_library_line. eapply lasts_bind; [apply lasts_expect_tag; lia|]. intros []. apply lasts_names.
  - intros [? ?]. eapply lasts_bind with (d := fun _ => 7); [apply lasts_skip with (c := 8); lia|]. intros _. apply lasts_ret. lia.
Qed.

Theorem lasts_objset : forall P, lasts P 8 (fun _ => 0) 0 (parse_objset dbg fuel : OM _).
Proof.
  intros P. unfold parse_objset. eapply lasts_bind; [apply lasts_libraries|]. intro libs.
  eapply lasts_bind; [apply lasts_objects|]. intro objs. apply lasts_ret. lia.
Qed.
End Obj.
