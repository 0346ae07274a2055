(** The counters of the parser do not overflow: each is at most the number of
    tokens already read. *)
From Verif Require Import ObjModel UsizeModel SourceProofs LexerProofs TotalProofs ObjTop Calls.
Local Open Scope list_scope.


Lemma word_add_small : forall dbg a b, (Z.of_nat (a + b) <= isize_max + 1)%Z -> word_add dbg a b = Some (a + b).
Proof.
  intros dbg a b H. unfold word_add.
  rewrite (proj2 (N.leb_le _ _)); auto. unfold usize_max. unfold isize_max in H.
  apply N2Z.inj_le. rewrite nat_N_Z. change (Z.of_N (2 ^ 64 - 1)) with (2 ^ 64 - 1)%Z. lia.
Qed.

Lemma as_isize_small : forall n, (Z.of_nat n <= isize_max)%Z -> as_isize n = Z.of_nat n.
Proof.
  intros n H. unfold as_isize, wrap_isize. unfold isize_max in H. rewrite Z.mod_small; lia.
Qed.

Lemma as_usize_small : forall z, (0 <= z <= isize_max)%Z -> as_usize z = Z.to_nat z.
Proof. intros z H. unfold as_usize. unfold isize_max in H. rewrite Z.mod_small; auto. lia. Qed.

Section Agree.
Context {S : token_source}.
(** [size p n]: the parser has [n] tokens left. *)
Context (size : parser S -> nat -> Prop).
Context (size_peek : forall p n, size p n -> size (snd (peek (K := error_kind) p)) n).
Context (size_next : forall p n, size p n ->
  match fst (next (K := error_kind) p) with
  | Ok (Some _) => exists n', n = Datatypes.S n' /\ size (snd (next (K := error_kind) p)) n'
  | _ => size (snd (next (K := error_kind) p)) n
  end).
Context (dbg : bool) (fuel : nat) (total : nat) (Htotal : (Z.of_nat total <= isize_max)%Z).

Local Notation M := (M S error_kind).

(** Started with [n] tokens left, the two do the same; [Q] holds of a result and
    the number of tokens left. *)
Definition agree {A} (n : nat) (m' m : M A) (Q : A -> nat -> Prop) : Prop :=
  forall p, size p n ->
    m' p = m p /\ exists n', n' <= n /\ size (snd (m p)) n' /\
      match fst (m p) with Ok a => Q a n' | _ => True end.

Lemma agree_ret : forall A n (a : A) (Q : A -> nat -> Prop), Q a n -> agree n (ret a) (ret a) Q.
Proof. intros A n a Q H p Hp. split; auto. exists n. cbn. auto. Qed.

Lemma agree_error : forall A n k msg (Q : A -> nat -> Prop), agree n (error k msg) (error k msg) Q.
Proof. intros A n k msg Q p Hp. split; auto. exists n. cbn. auto. Qed.

Lemma agree_panics : forall A n x (Q : A -> nat -> Prop), agree n (panics x) (panics x) Q.
Proof. intros A n x Q p Hp. split; auto. exists n. cbn. auto. Qed.

Lemma agree_diverge : forall A n (Q : A -> nat -> Prop), agree n diverge diverge Q.
Proof. intros A n Q p Hp. split; auto. exists n. cbn. auto. Qed.

Lemma agree_bind : forall A B n (m' m : M A) (f' f : A -> M B) Q R,
  agree n m' m Q -> (forall a n', n' <= n -> Q a n' -> agree n' (f' a) (f a) R) ->
  agree n (bind m' f') (bind m f) R.
Proof.
  intros A B n m' m f' f Q R Hm Hf p Hp. destruct (Hm p Hp) as (E & n' & Hn & Hs & HQ).
  unfold bind. rewrite E. destruct (m p) as [[a|e|x|] q]; cbn in *;
    try (split; auto; exists n'; auto; fail).
  destruct (Hf a n' Hn HQ q Hs) as (E' & n2 & Hn2 & Hs2 & HR).
  split; auto. exists n2. repeat split; auto. lia.
Qed.

Lemma agree_weaken : forall A n (m' m : M A) (Q R : A -> nat -> Prop),
  agree n m' m Q -> (forall a n', n' <= n -> Q a n' -> R a n') -> agree n m' m R.
Proof.
  intros A n m' m Q R H HR p Hp. destruct (H p Hp) as (E & n' & Hn & Hs & HQ). split; auto.
  exists n'. repeat split; auto. destruct (fst (m p)); auto.
Qed.

Lemma agree_catch : forall A n (m' m : M A) Q, agree n m' m Q ->
  agree n (catch m') (catch m) (fun r n' => match r with inl a => Q a n' | inr _ => True end).
Proof.
  intros A n m' m Q H p Hp. destruct (H p Hp) as (E & n' & Hn & Hs & HQ). unfold catch. rewrite E.
  split; auto. exists n'. destruct (m p) as [[a|e|x|] q]; cbn in *; auto.
Qed.

Lemma agree_from_result : forall A n (r : A + parse_error error_kind), agree n (from_result r) (from_result r) (fun _ _ => True).
Proof. intros A n r p Hp. split; auto. exists n. destruct r; cbn; auto. Qed.

Lemma agree_peek : forall n, agree n peek peek (fun _ n' => n' = n).
Proof.
  intros n p Hp. split; auto. exists n. repeat split; auto. now destruct (fst (peek p)).
Qed.

Lemma agree_next : forall n, agree n next next (fun t n' => match t with Some _ => n = Datatypes.S n' | None => n' = n end).
Proof.
  intros n p Hp. split; auto. pose proof (size_next p n Hp) as H.
  destruct (fst (next p)) as [[t|]|e|x|]; try (exists n; auto; fail).
  destruct H as (n' & -> & H). exists n'. auto.
Qed.

Lemma agree_loop : forall A B (body' body : A -> M (step A B)) (I : A -> nat -> Prop) (Q : B -> nat -> Prop) f n a,
  (forall a n', n' <= n -> I a n' ->
     agree n' (body' a) (body a) (fun r n2 => match r with Continue a' => I a' n2 | Break b => Q b n2 end)) ->
  I a n -> agree n (loop f body' a) (loop f body a) Q.
Proof.
  intros A B body' body I Q f. induction f as [|f IH]; intros n a Hb Ha; cbn; [apply agree_diverge|].
  eapply agree_bind; [apply Hb; auto|]. intros [a'|b] n' Hn H; cbn in H; [|now apply agree_ret].
  apply IH; auto. intros a2 n2 Hn2. apply Hb. lia.
Qed.

Lemma agree_for_each : forall A X (body' body : A -> X -> M A) (I : A -> list X -> Prop) n xs a,
  (forall a x r n', n' <= n -> I a (x :: r) -> agree n' (body' a x) (body a x) (fun a' _ => I a' r)) ->
  I a xs -> agree n (for_each xs body' a) (for_each xs body a) (fun a' _ => I a' []).
Proof.
  intros A X body' body I n xs. revert n. induction xs as [|x xs IH]; intros n a Hb Ha; cbn; [now apply agree_ret|].
  eapply agree_bind; [apply (Hb a x xs n); auto|]. intros a' n' Hn H; cbn in H. apply IH; auto.
  intros a2 y r n2 Hn2. apply Hb. lia.
Qed.

(** The additions. *)
Lemma agree_add : forall n a b (Q : nat -> nat -> Prop), a + b <= total -> Q (a + b) n ->
  agree n (usize_add dbg a b) (ret (a + b)) Q.
Proof.
  intros n a b Q H HQ. unfold usize_add. rewrite word_add_small by lia. now apply agree_ret.
Qed.

(** An addition in the middle of a computation that goes on with its value. *)
Lemma agree_add_bind : forall B n a b (f' : nat -> M B) (m : M B) Q, a + b <= total ->
  agree n (f' (a + b)) m Q -> agree n (bind (usize_add dbg a b) f') m Q.
Proof.
  intros B n a b f' m Q H Hf. unfold usize_add. rewrite word_add_small by lia. exact Hf.
Qed.

(** Code without additions. *)
Lemma agree_isize_sub : forall n a b, agree n (isize_sub dbg a b) (isize_sub dbg a b) (fun z _ => in_isize (a - b) = true -> z = (a - b)%Z).
Proof.
  intros n a b. unfold isize_sub. destruct (in_isize (a - b)); [now apply agree_ret|].
  destruct dbg; [apply agree_panics|]. apply agree_ret. discriminate.
Qed.

Lemma agree_debug_assert : forall n b, agree n (debug_assert dbg b) (debug_assert dbg b) (fun _ _ => True).
Proof. intros n b. unfold debug_assert. destruct (dbg && negb b); [apply agree_panics|now apply agree_ret]. Qed.

Lemma agree_index : forall A n (v : list A) i, agree n (index v i) (index v i) (fun _ _ => i < length v).
Proof.
  intros A n v i. unfold index. destruct (nth_error v i) eqn:E; [|apply agree_panics].
  apply agree_ret. apply nth_error_Some. congruence.
Qed.

Lemma agree_len_minus : forall A n (v : list A) k, agree n (len_minus dbg v k) (len_minus dbg v k) (fun m _ => m + k = length v).
Proof.
  intros A n v k. unfold len_minus. destruct (k <=? length v) eqn:E; [|apply agree_panics].
  apply agree_ret. apply Nat.leb_le in E. lia.
Qed.

Lemma agree_next_string : forall n, agree n next_string next_string (fun _ n' => n = Datatypes.S n').
Proof.
  intros n. unfold next_string. eapply agree_bind; [apply agree_next|cbv beta].
  intros [t|] n' Hn H; [now apply agree_ret|apply agree_error].
Qed.

Lemma agree_expect_tag : forall n tag, agree n (expect_tag tag) (expect_tag tag) (fun _ n' => n = Datatypes.S n').
Proof.
  intros n tag. unfold expect_tag. eapply agree_bind; [apply agree_next|cbv beta].
  intros [t|] n' Hn H; [|apply agree_error]. destruct (negb (bytes_eqb t tag)); [apply agree_error|now apply agree_ret].
Qed.

Lemma agree_parse_f64 : forall n, agree n parse_f64 parse_f64 (fun _ n' => n = Datatypes.S n').
Proof.
  intros n. unfold parse_f64. eapply agree_bind; [apply agree_next_string|cbv beta].
  intros t n' Hn H. destruct (RustStd.parse_f64 t); [now apply agree_ret|apply agree_error].
Qed.

Lemma agree_parse_isize : forall n, agree n parse_isize parse_isize (fun _ n' => n = Datatypes.S n').
Proof.
  intros n. unfold parse_isize. eapply agree_bind; [apply agree_next_string|cbv beta].
  intros t n' Hn H. destruct (RustStd.parse_isize t); [now apply agree_ret|apply agree_error].
Qed.

Lemma agree_advance : forall n, agree n advance advance (fun _ _ => True).
Proof. intros n. eapply agree_bind; [apply agree_next|cbv beta]. intros; now apply agree_ret. Qed.

Lemma agree_try_once : forall T (f : bytes -> option T) n, agree n (try_once f) (try_once f) (fun _ _ => True).
Proof.
  intros T f n. unfold try_once. eapply agree_bind; [apply agree_peek|cbv beta].
  intros [t|] n' Hn H; [|now apply agree_ret]. destruct (f t); [|now apply agree_ret].
  eapply agree_bind; [apply agree_advance|cbv beta]. intros; now apply agree_ret.
Qed.

Lemma agree_skip : forall f n, agree (A := unit) n (skip_zero_or_more_newlines f) (skip_zero_or_more_newlines f) (fun _ _ => True).
Proof.
  intros f n. apply agree_loop with (I := fun _ _ => True); auto. intros [] n' Hn _.
  eapply agree_bind; [apply agree_peek|cbv beta]. intros t n2 Hn2 _. destruct (is_nl t); [|now apply agree_ret].
  eapply agree_bind; [apply agree_advance|cbv beta]. intros; now apply agree_ret.
Qed.

Lemma agree_skip_one : forall f n, agree n (skip_one_or_more_newlines f) (skip_one_or_more_newlines f) (fun _ _ => True).
Proof.
  intros f n. eapply agree_bind; [apply agree_expect_tag|cbv beta]. intros ? n' Hn _.
  eapply agree_bind; [apply agree_skip|cbv beta]. intros; now apply agree_ret.
Qed.

Lemma agree_object_name : forall f n, agree n (parse_object_name f) (parse_object_name f) (fun _ _ => True).
Proof.
  intros f n. unfold parse_object_name. eapply agree_bind; [apply agree_peek|cbv beta].
  intros t n' Hn _. destruct (is_tok t "o"); [|now apply agree_ret].
  eapply agree_bind; [apply agree_expect_tag|cbv beta]. intros ? n2 Hn2 _.
  eapply agree_bind; [apply agree_catch, agree_next_string|cbv beta]. intros r n3 Hn3 _.
  eapply agree_bind; [apply agree_skip_one|cbv beta]. intros ? n4 Hn4 _. apply agree_from_result.
Qed.

Lemma agree_vertex : forall n, agree n parse_vertex parse_vertex (fun _ n' => n' < n).
Proof.
  intros n. unfold parse_vertex. eapply agree_bind; [apply agree_expect_tag|cbv beta]. intros ? n0 Hn0 H0.
  do 3 (eapply agree_bind; [apply agree_parse_f64|cbv beta]; intros).
  eapply agree_bind; [apply agree_try_once|cbv beta]. intros. apply agree_ret. lia.
Qed.

Lemma agree_texture_vertex : forall n, agree n parse_texture_vertex parse_texture_vertex (fun _ n' => n' < n).
Proof.
  intros n. unfold parse_texture_vertex. eapply agree_bind; [apply agree_expect_tag|cbv beta]. intros ? n0 Hn0 H0.
  eapply agree_bind; [apply agree_parse_f64|cbv beta]; intros.
  do 2 (eapply agree_bind; [apply agree_try_once|cbv beta]; intros). apply agree_ret. lia.
Qed.

Lemma agree_normal_vertex : forall n, agree n parse_normal_vertex parse_normal_vertex (fun _ n' => n' < n).
Proof.
  intros n. unfold parse_normal_vertex. eapply agree_bind; [apply agree_expect_tag|cbv beta]. intros ? n0 Hn0 H0.
  do 3 (eapply agree_bind; [apply agree_parse_f64|cbv beta]; intros). apply agree_ret. lia.
Qed.

Lemma agree_smoothing_group : forall n l, agree n (parse_smoothing_group l) (parse_smoothing_group l) (fun _ n' => n' < n).
Proof.
  intros n l. unfold parse_smoothing_group. eapply agree_bind; [apply agree_expect_tag|cbv beta]. intros ? n0 Hn0 H0.
  eapply agree_bind; [apply agree_next|cbv beta]. intros [t|] n1 Hn1 H1; [|apply agree_error].
  destruct (bytes_eqb t (lit "off")); [apply agree_ret; lia|cbv beta].
  destruct (parse_usize t); [apply agree_ret; lia|apply agree_error].
Qed.

Lemma agree_material_name : forall n l, agree n (parse_material_name l) (parse_material_name l) (fun _ n' => n' < n).
Proof.
  intros n l. unfold parse_material_name. eapply agree_bind; [apply agree_expect_tag|cbv beta]. intros ? n0 Hn0 H0.
  eapply agree_bind; [apply agree_next|cbv beta]. intros [t|] n1 Hn1 H1; [|apply agree_error]. apply agree_ret. lia.
Qed.

Lemma agree_verify : forall n l, agree n (verify_vtn_indices l) (verify_vtn_indices l) (fun _ _ => True).
Proof.
  intros n l. unfold verify_vtn_indices. apply agree_for_each with (I := fun _ _ => True); auto.
  intros a x r n' Hn _. destruct a; [|now apply agree_ret].
  do 2 (eapply agree_bind; [apply agree_index|cbv beta]; intros). now apply agree_ret.
Qed.

Lemma agree_shape_entries : forall n es gs ss, agree n (parse_shape_entries dbg es gs ss) (parse_shape_entries dbg es gs ss) (fun _ _ => True).
Proof.
  intros n es gs ss. unfold parse_shape_entries.
  eapply agree_bind.
  { apply agree_for_each with (I := fun _ _ => True); auto. intros a [[x y] [u v]] r n' Hn _.
    apply agree_for_each with (I := fun _ _ => True); auto. intros. now apply agree_ret. }
  intros t n1 Hn1 _. eapply agree_bind; [apply agree_debug_assert|cbv beta]. intros ? n2 Hn2 _.
  eapply agree_bind.
  { apply agree_for_each with (I := fun _ _ => True); auto. intros ? [[x y] u] r n' Hn _.
    apply agree_for_each with (I := fun _ _ => True); auto. intros.
    eapply agree_bind; [apply agree_index|cbv beta]. intros. now apply agree_ret. }
  intros t2 n3 Hn3 _. eapply agree_bind; [apply agree_debug_assert|cbv beta]. intros. now apply agree_ret.
Qed.

Lemma agree_geometries : forall n es ms, agree n (parse_geometries es ms) (parse_geometries es ms) (fun _ _ => True).
Proof.
  intros n es ms. unfold parse_geometries. apply agree_for_each with (I := fun _ _ => True); auto.
  intros ? [[x y] u] r n' Hn _. eapply agree_bind; [apply agree_index|cbv beta]. intros. now apply agree_ret.
Qed.

(** ** The functions with additions and casts *)

Definition small (r : nat * nat) : Prop := fst r <= total /\ snd r <= total.

Lemma agree_calculate_index : forall n r z, small r ->
  agree n (word_calculate_index dbg r z) (calculate_index dbg r z) (fun _ _ => True).
Proof.
  intros n [a b] z [Ha Hb]; cbn in Ha, Hb. unfold word_calculate_index, calculate_index.
  rewrite !as_isize_small by lia.
  eapply agree_bind with (Q := fun _ _ => True).
  { destruct (z <=? 0)%Z; (eapply agree_weaken; [apply agree_isize_sub|auto]). }
  intros v n1 Hn1 _.
  destruct ((Z.of_nat a <=? v)%Z && (v <? Z.of_nat b)%Z) eqn:E; [|apply agree_error].
  apply andb_prop in E. destruct E as [E1 E2]. apply Z.leb_le in E1. apply Z.ltb_lt in E2.
  eapply agree_bind; [apply agree_debug_assert|cbv beta]. intros ? n2 Hn2 _.
  eapply agree_bind; [apply agree_isize_sub|cbv beta]. intros d n3 Hn3 Hd.
  assert (Hin : in_isize (v - Z.of_nat a) = true).
  { unfold in_isize. rewrite (proj2 (Z.leb_le _ _)), (proj2 (Z.leb_le _ _)); auto; unfold isize_min; lia. }
  rewrite (Hd Hin). rewrite as_usize_small by lia. now apply agree_ret.
Qed.

Lemma agree_process_next : forall n ss r, small r ->
  agree n (word_process_next dbg ss r) (process_next dbg ss r) (fun _ _ => True).
Proof.
  intros n [|s ss] r Hr; cbn; [now apply agree_ret|cbv beta]. eapply agree_bind with (Q := fun _ _ => True).
  - unfold word_process_split, process_split. destruct s as [|c s]; [now apply agree_ret|cbv beta].
    destruct (RustStd.parse_isize (c :: s)); [|apply agree_error].
    eapply agree_bind; [now apply agree_calculate_index|cbv beta]. intros. now apply agree_ret.
  - intros. now apply agree_ret.
Qed.

Lemma agree_vtn_index : forall n a b c, small a -> small b -> small c ->
  agree n (word_parse_vtn_index dbg a b c) (parse_vtn_index dbg a b c) (fun _ n' => n' < n).
Proof.
  intros n a b c Ha Hb Hc. unfold word_parse_vtn_index, parse_vtn_index.
  eapply agree_bind; [apply agree_next_string|cbv beta]. intros st n1 Hn1 H1.
  eapply agree_bind; [now apply agree_process_next|cbv beta]. intros [s1 l1] n2 Hn2 _.
  eapply agree_bind; [now apply agree_process_next|cbv beta]. intros [s2 l2] n3 Hn3 _.
  eapply agree_bind; [now apply agree_process_next|cbv beta]. intros [s3 l3] n4 Hn4 _.
  cbv zeta. match goal with |- agree _ (if ?x then _ else _) _ _ => destruct x end; [apply agree_error|cbv beta].
  destruct s1, s2, s3; try apply agree_error; apply agree_ret; lia.
Qed.

Lemma agree_vtn_indices : forall n l a b c, n <= total -> small a -> small b -> small c ->
  agree n (word_parse_vtn_indices dbg fuel l a b c) (parse_vtn_indices dbg fuel l a b c)
    (fun r n' => length (snd r) + n' <= length l + n).
Proof.
  intros n l a b c Hn Ha Hb Hc. unfold word_parse_vtn_indices, parse_vtn_indices.
  apply agree_loop with (I := fun r n' => fst r + n' <= n /\ length (snd r) + n' <= length l + n).
  - intros [k vs] n1 Hn1 [H1 H2]; cbn [fst snd] in H1, H2.
    eapply agree_bind; [apply agree_catch; now apply agree_vtn_index|cbv beta]. cbn. intros [v|e] n2 Hn2 H.
    + apply agree_add_bind; [lia|cbv beta]. apply agree_ret. cbn [fst snd]. rewrite app_length. cbn. lia.
    + apply agree_ret. cbn. lia.
  - cbn. lia.
Qed.

Lemma agree_point : forall n es a, n <= total -> small a ->
  agree n (word_parse_point dbg fuel es a) (parse_point dbg fuel es a) (fun r n' => fst r + n' < n).
Proof.
  intros n es a Hn Ha. unfold word_parse_point, parse_point.
  eapply agree_bind; [apply agree_expect_tag|cbv beta]. intros ? n1 Hn1 H1.
  eapply agree_bind; [apply agree_parse_isize|cbv beta]. intros z n2 Hn2 H2.
  eapply agree_bind; [now apply agree_calculate_index|cbv beta]. intros i n3 Hn3 _.
  apply agree_loop with (I := fun r n' => fst r + n' < n); [|cbn; lia].
  intros [k vs] n4 Hn4 H4; cbn [fst] in H4.
  eapply agree_bind; [apply agree_next|cbv beta]. intros [t|] n5 Hn5 H5; [|apply agree_ret; cbn; lia].
  destruct (negb (bytes_eqb t nl)); [|apply agree_ret; cbn; lia].
  destruct (RustStd.parse_isize t); [|apply agree_error].
  eapply agree_bind; [now apply agree_calculate_index|cbv beta]. intros j n6 Hn6 _.
  apply agree_add_bind; [lia|cbv beta]. apply agree_ret. cbn. lia.
Qed.

Lemma in_range : forall x lo hi, In x (range lo hi) -> x < hi.
Proof. intros x lo hi H. apply in_seq in H. lia. Qed.

Lemma agree_line : forall n es a b c, n <= total -> small a -> small b -> small c ->
  agree n (word_parse_line dbg fuel es a b c) (parse_line dbg fuel es a b c) (fun r n' => fst r + n' < n).
Proof.
  intros n es a b c Hn Ha Hb Hc. unfold word_parse_line, parse_line.
  eapply agree_bind; [apply agree_expect_tag|cbv beta]. intros ? n1 Hn1 H1.
  eapply agree_bind; [now apply agree_vtn_index|cbv beta]. intros v1 n2 Hn2 H2.
  eapply agree_bind; [now apply agree_vtn_index|cbv beta]. intros v2 n3 Hn3 H3.
  eapply agree_bind; [apply agree_vtn_indices; auto; lia|cbv beta]. intros [k vs] n4 Hn4 H4; cbn [snd length] in H4.
  eapply agree_bind; [apply agree_verify|cbv beta]. intros ok n5 Hn5 _. destruct (negb ok); [apply agree_error|cbv beta].
  eapply agree_bind; [apply agree_len_minus|cbv beta]. intros m n6 Hn6 H6.
  eapply agree_bind.
  - apply agree_for_each with (I := fun _ xs => Forall (fun i => i < m) xs).
    + intros x i r n7 Hn7 Hi. inversion Hi; subst.
      eapply agree_bind; [apply agree_index|cbv beta]. intros u n8 Hn8 _.
      apply agree_add_bind; [lia|cbv beta]. eapply agree_bind; [apply agree_index|cbv beta]. intros. now apply agree_ret.
    + apply Forall_forall. intros x. apply in_range.
  - intros. apply agree_ret. cbn. lia.
Qed.

Lemma agree_face : forall n es a b c, n <= total -> small a -> small b -> small c ->
  agree n (word_parse_face dbg fuel es a b c) (parse_face dbg fuel es a b c) (fun r n' => fst r + n' < n).
Proof.
  intros n es a b c Hn Ha Hb Hc. unfold word_parse_face, parse_face.
  eapply agree_bind; [apply agree_expect_tag|cbv beta]. intros ? n1 Hn1 H1.
  eapply agree_bind; [apply agree_vtn_indices; auto; lia|cbv beta]. intros [k vs] n4 Hn4 H4; cbn [snd length] in H4.
  destruct (length vs <? 3); [apply agree_error|cbv beta].
  eapply agree_bind; [apply agree_verify|cbv beta]. intros ok n5 Hn5 _. destruct (negb ok); [apply agree_error|cbv beta].
  unfold word_triangulate, triangulate.
  eapply agree_bind; [apply agree_index|cbv beta]. intros v0 n6 Hn6 _.
  eapply agree_bind; [apply agree_len_minus|cbv beta]. intros m n7 Hn7 H7.
  eapply agree_bind.
  - apply agree_for_each with (I := fun _ xs => Forall (fun i => i < m) xs).
    + intros x i r n8 Hn8 Hi. inversion Hi; subst.
      apply agree_add_bind; [lia|cbv beta]. eapply agree_bind; [apply agree_index|cbv beta]. intros u n9 Hn9 _.
      apply agree_add_bind; [lia|cbv beta]. eapply agree_bind; [apply agree_index|cbv beta]. intros. now apply agree_ret.
    + apply Forall_forall. intros x. apply in_range.
  - intros. apply agree_ret. cbn. lia.
Qed.

Lemma agree_elements : forall n es a b c, n <= total -> small a -> small b -> small c ->
  agree n (word_parse_elements dbg fuel es a b c) (parse_elements dbg fuel es a b c) (fun r n' => fst r + n' < n).
Proof.
  intros n es a b c Hn Ha Hb Hc. unfold word_parse_elements, parse_elements.
  eapply agree_bind; [apply agree_peek|cbv beta]. intros t n' Hn' ->.
  destruct (is_tok t "p"); [now apply agree_point|cbv beta]. destruct (is_tok t "l"); [now apply agree_line|cbv beta].
  destruct (is_tok t "f"); [now apply agree_face|cbv beta]. apply agree_error.
Qed.

Lemma agree_names : forall n l, n <= total ->
  agree n (word_names_until_newline dbg fuel l) (names_until_newline fuel l) (fun r n' => fst r + n' <= n).
Proof.
  intros n l Hn. unfold word_names_until_newline, names_until_newline.
  apply agree_loop with (I := fun r n' => fst r + n' <= n); [|cbn; lia].
  intros [k vs] n1 Hn1 H1; cbn [fst] in H1.
  eapply agree_bind; [apply agree_next|cbv beta]. intros [t|] n2 Hn2 H2; [|apply agree_ret; cbn; lia].
  destruct (negb (bytes_eqb t nl)); [|apply agree_ret; cbn; lia].
  apply agree_add_bind; [lia|cbv beta]. apply agree_ret. cbn. lia.
Qed.

(** The counters of one object, with [n] tokens left. *)
Record bounded (st : object_state) (n : nat) : Prop := mkBounded {
  b_group : max_group_index (os_groups st) + n <= total;
  b_group_el : max_element_group_index (os_groups st) + n <= total;
  b_smooth : smoothing_group_index (os_smoothing st) + n <= total;
  b_smooth_el : max_element_smoothing_group_index (os_smoothing st) + n <= total;
  b_mat : material_name_index (os_material st) + n <= total;
  b_mat_el : max_element_material_name_index (os_material st) + n <= total;
  b_v : max_vertex_index (os_ranges st) + n <= total;
  b_vt : max_texture_index (os_ranges st) + n <= total;
  b_vn : max_normal_index (os_ranges st) + n <= total;
  b_v_min : min_vertex_index (os_ranges st) + length (vertices (os_data st)) = max_vertex_index (os_ranges st);
  b_vt_min : min_texture_index (os_ranges st) + length (texture_vertices (os_data st)) = max_texture_index (os_ranges st);
  b_vn_min : min_normal_index (os_ranges st) + length (normal_vertices (os_data st)) = max_normal_index (os_ranges st)
}.

Ltac bound := match goal with
  | H : bounded _ _ |- bounded _ _ =>
      destruct H; constructor; cbn -[Nat.add] in *; rewrite ?app_length; cbn [length] in *; lia
  end.

Lemma agree_groups : forall n l, n <= total ->
  agree n (word_parse_groups dbg fuel l) (parse_groups fuel l) (fun r n' => fst r + n' < n).
Proof.
  intros n l Hn. eapply agree_bind; [apply agree_expect_tag|cbv beta]. intros ? n1 Hn1 H1.
  eapply agree_weaken; [apply agree_names; lia|cbv beta]. intros [k l'] n2 Hn2 H2; cbn [fst] in *. lia.
Qed.

Lemma agree_g : forall d g s m r n, bounded (mkObjectState d g s m r) n ->
  agree n (word_parse_object_g dbg fuel g) (parse_object_g fuel g) (fun g' n' => bounded (mkObjectState d g' s m r) n').
Proof.
  intros d g s m r n Hb. unfold word_parse_object_g, parse_object_g.
  destruct (groups g); (eapply agree_bind; [apply agree_groups; destruct Hb; cbn in *; lia|cbv beta];
    intros [k l'] n1 Hn1 H1; cbn [fst] in H1; apply agree_add_bind; [destruct Hb; cbn in *; lia|];
    apply agree_ret; bound).
Qed.

Lemma agree_s : forall d g s m r n, bounded (mkObjectState d g s m r) n ->
  agree n (word_parse_object_s dbg s) (parse_object_s s) (fun s' n' => bounded (mkObjectState d g s' m r) n').
Proof.
  intros d g s m r n Hb. unfold word_parse_object_s, parse_object_s.
  destruct (smoothing_groups s).
  - eapply agree_bind; [apply agree_smoothing_group|cbv beta]. intros [k l'] n1 Hn1 H1. apply agree_ret; bound.
  - eapply agree_bind; [apply agree_smoothing_group|cbv beta]. intros [k l'] n1 Hn1 H1.
    apply agree_add_bind; [destruct Hb; cbn in *; lia|]. apply agree_ret; bound.
Qed.

Lemma agree_usemtl : forall d g s m r n, bounded (mkObjectState d g s m r) n ->
  agree n (word_parse_object_usemtl dbg m) (parse_object_usemtl m) (fun m' n' => bounded (mkObjectState d g s m' r) n').
Proof.
  intros d g s m r n Hb. unfold word_parse_object_usemtl, parse_object_usemtl.
  eapply agree_bind with (Q := fun x n' => snd x + n' <= total).
  - destruct (material_names m).
    + eapply agree_bind; [apply agree_material_name|cbv beta]. intros [k l'] n1 Hn1 H1. apply agree_ret.
      destruct Hb; cbn in *; lia.
    + eapply agree_bind; [apply agree_material_name|cbv beta]. intros [k l'] n1 Hn1 H1.
      apply agree_add_bind; [destruct Hb; cbn in *; lia|]. apply agree_ret. destruct Hb; cbn in *; lia.
  - intros [ns i] n1 Hn1 H1. apply agree_ret. bound.
Qed.

Lemma agree_element : forall st n, bounded st n ->
  agree n (word_parse_object_element dbg fuel st) (parse_object_element dbg fuel st) bounded.
Proof.
  intros [d g s m r] n Hb. unfold word_parse_object_element, parse_object_element. cbn [os_data os_groups os_smoothing os_material os_ranges].
  assert (Hr : small (vertex_range r) /\ small (texture_range r) /\ small (normal_range r)).
  { destruct Hb; unfold small; cbn in *. repeat split; lia. }
  destruct Hr as (H1 & H2 & H3).
  eapply agree_bind; [apply agree_elements; auto; destruct Hb; cbn in *; lia|cbv beta].
  intros [k l] n1 Hn1 H; cbn [fst] in H.
  apply agree_add_bind; [destruct Hb, (groups g); cbn in *; lia|].
  apply agree_add_bind; [destruct Hb, (smoothing_groups s); cbn in *; lia|].
  apply agree_add_bind; [destruct Hb, (material_names m); cbn in *; lia|].
  apply agree_ret. destruct Hb; constructor; cbn in *; try lia;
    destruct (groups g), (smoothing_groups s), (material_names m); cbn in *; lia.
Qed.

Lemma agree_body : forall st n, bounded st n ->
  agree n (word_parse_object_body dbg fuel st) (parse_object_body dbg fuel st)
    (fun r n' => match r with Continue st' => bounded st' n' | Break st' => bounded st' n' end).
Proof.
  intros st n Hb. unfold word_parse_object_body, parse_object_body.
  eapply agree_bind; [apply agree_peek|cbv beta]. intros t n' Hn' ->.
  destruct (is_tok t "g").
  { destruct st as [d g s m r]. eapply agree_bind; [apply (agree_g d g s m r); exact Hb|cbv beta]. intros g' n1 Hn1 H. now apply agree_ret. }
  destruct (is_tok t "s").
  { destruct st as [d g s m r]. eapply agree_bind; [apply (agree_s d g s m r); exact Hb|cbv beta]. intros g' n1 Hn1 H. now apply agree_ret. }
  destruct (is_tok t "usemtl").
  { destruct st as [d g s m r]. eapply agree_bind; [apply (agree_usemtl d g s m r); exact Hb|cbv beta]. intros g' n1 Hn1 H. now apply agree_ret. }
  destruct (is_tok t "v").
  { eapply agree_bind with (Q := bounded); [|intros; apply agree_ret; assumption].
    eapply agree_bind; [apply agree_vertex|cbv beta]. intros v n1 Hn1 H. destruct st as [d g s m r].
    apply agree_add_bind; [destruct Hb; cbn in *; lia|]. apply agree_ret. bound. }
  destruct (is_tok t "vt").
  { eapply agree_bind with (Q := bounded); [|intros; apply agree_ret; assumption].
    eapply agree_bind; [apply agree_texture_vertex|cbv beta]. intros v n1 Hn1 H. destruct st as [d g s m r].
    apply agree_add_bind; [destruct Hb; cbn in *; lia|]. apply agree_ret. bound. }
  destruct (is_tok t "vn").
  { eapply agree_bind with (Q := bounded); [|intros; apply agree_ret; assumption].
    eapply agree_bind; [apply agree_normal_vertex|cbv beta]. intros v n1 Hn1 H. destruct st as [d g s m r].
    apply agree_add_bind; [destruct Hb; cbn in *; lia|]. apply agree_ret. bound. }
  destruct (is_tok t "p" || is_tok t "l" || is_tok t "f").
  { eapply agree_bind; [now apply agree_element|]. intros; apply agree_ret; assumption. }
  destruct (is_nl t).
  { eapply agree_bind; [apply agree_skip_one|cbv beta]. intros ? n1 Hn1 _. apply agree_ret. destruct st; bound. }
  destruct t as [t|]; [destruct (bytes_eqb t (lit "o")); [|apply agree_error]|];
    apply agree_ret; destruct st; bound.
Qed.

(** The counters between objects. *)
Definition counts_fit (r : index_ranges) (n : nat) : Prop :=
  min_vertex_index r = max_vertex_index r /\ min_texture_index r = max_texture_index r /\
  min_normal_index r = max_normal_index r /\
  max_vertex_index r + n <= total /\ max_texture_index r + n <= total /\ max_normal_index r + n <= total.

Lemma agree_object : forall r n, counts_fit r n ->
  agree n (word_parse_object dbg fuel r) (parse_object dbg fuel r) (fun x n' => counts_fit (snd x) n').
Proof.
  intros r n (E1 & E2 & E3 & H1 & H2 & H3). unfold word_parse_object, parse_object.
  eapply agree_bind; [apply agree_object_name|cbv beta]. intros nm n1 Hn1 _.
  eapply agree_bind.
  { apply agree_loop with (I := bounded) (Q := bounded).
    - intros. now apply agree_body.
    - constructor; cbn; lia. }
  intros st n2 Hn2 Hb. eapply agree_bind; [apply agree_shape_entries|cbv beta]. intros se n3 Hn3 _.
  eapply agree_bind; [apply agree_geometries|cbv beta]. intros ge n4 Hn4 _.
  destruct Hb. apply agree_add_bind; [lia|]. apply agree_add_bind; [lia|]. apply agree_add_bind; [lia|].
  apply agree_ret. unfold counts_fit. cbn. lia.
Qed.

Lemma agree_objset : forall n, n <= total ->
  agree n (word_parse_objset dbg fuel) (parse_objset dbg fuel) (fun _ _ => True).
Proof.
  intros n Hn. unfold word_parse_objset, parse_objset.
  eapply agree_bind with (Q := fun _ _ => True).
  { eapply agree_bind; [apply agree_skip|cbv beta]. intros ? n1 Hn1 _.
    apply agree_loop with (I := fun _ _ => True); auto. intros ls n2 Hn2 _.
    eapply agree_bind; [apply agree_peek|cbv beta]. intros t n3 Hn3 ->.
    destruct (is_tok t "mtllib"); [|now apply agree_ret].
    eapply agree_bind with (Q := fun _ _ => True).
    - eapply agree_bind; [apply agree_expect_tag|cbv beta]. intros ? n4 Hn4 _.
      eapply agree_weaken; [apply agree_names; lia|auto].
    - intros [k l] n4 Hn4 _. eapply agree_bind; [apply agree_skip|cbv beta]. intros. now apply agree_ret. }
  intros ls n1 Hn1 _. eapply agree_bind with (Q := fun _ _ => True); [|intros; apply agree_ret; assumption].
  eapply agree_bind; [apply agree_skip|cbv beta]. intros ? n2 Hn2 _.
  apply agree_loop with (I := fun x n' => counts_fit (snd x) n'); [|unfold counts_fit; cbn; lia].
  intros [os r] n3 Hn3 Hr; cbn [snd] in Hr.
  eapply agree_bind; [apply agree_peek|cbv beta]. intros t n4 Hn4 ->. destruct t as [t|]; [|now apply agree_ret].
  eapply agree_bind; [now apply agree_object|cbv beta]. intros [ob r'] n5 Hn5 H5; cbn [snd] in H5.
  eapply agree_bind; [apply agree_skip|cbv beta]. intros ? n6 Hn6 _. apply agree_ret. cbn [snd].
  unfold counts_fit in *. lia.
Qed.

End Agree.

(** ** The lexer *)

Lemma advance_word : forall dbg lx, (Z.of_nat (current_line_number lx) <= isize_max)%Z ->
  (Z.of_nat (stream_position lx) <= isize_max)%Z -> word_lexer_advance dbg lx = Some (lexer_advance lx).
Proof.
  intros dbg lx H1 H2. unfold word_lexer_advance, lexer_advance.
  rewrite (word_add_small dbg (stream_position lx)) by lia.
  destruct (lexer_peek lx) as [c|]; auto. destruct (is_newline c); auto.
  now rewrite word_add_small by lia.
Qed.

(** What a lexer at the start of a call, with [k] bytes read, is like. *)
Definition within (lx : lexer) : Prop :=
  stream_position lx <= length (stream lx) /\ current_line_number lx <= stream_position lx + 1 /\ fits (stream lx).

Lemma skipn_cons : forall (s : bytes) n c r, skipn n s = c :: r -> skipn (n + 1) s = r /\ n < length s /\ nth_error s n = Some c.
Proof.
  induction s as [|x s IH]; intros [|n] c r H; cbn in *; try discriminate.
  - injection H as -> ->. repeat split; auto; lia.
  - destruct (IH n c r H) as (A & B & C). repeat split; auto. lia.
Qed.

Lemma within_advance : forall lx c r, within lx -> skipn (stream_position lx) (stream lx) = c :: r ->
  within (lexer_advance lx) /\ skipn (stream_position (lexer_advance lx)) (stream (lexer_advance lx)) = r.
Proof.
  intros lx c r (H1 & H2 & H3) E. destruct (skipn_cons _ _ _ _ E) as (E1 & E2 & E3).
  unfold lexer_advance, lexer_peek. rewrite E3. unfold within; cbn. split; auto.
  destruct (is_newline c); repeat split; auto; lia.
Qed.

Lemma skip_while_word : forall dbg f unread lx k, within lx -> skipn (stream_position lx) (stream lx) = unread ->
  k <= stream_position lx ->
  word_skip_while_loop dbg f unread lx k = Some (skip_while_loop f unread lx k) /\ within (fst (skip_while_loop f unread lx k)).
Proof.
  intros dbg f unread. induction unread as [|c u IH]; intros lx k Hw E Hk; cbn; auto.
  destruct (f c); cbn; auto.
  destruct (within_advance lx c u Hw E) as [Hw' E']. destruct Hw as (H1 & H2 & H3).
  destruct (skipn_cons _ _ _ _ E) as (_ & Hlt & _). unfold fits in H3.
  rewrite advance_word by lia. rewrite word_add_small by lia. apply IH; auto.
  unfold lexer_advance; cbn. lia.
Qed.

Lemma skip_word : forall dbg f lx, within lx ->
  word_skip_while dbg f lx = Some (skip_while f lx) /\ within (fst (skip_while f lx)).
Proof. intros dbg f lx H. apply skip_while_word; auto. lia. Qed.

Lemma comment_word : forall dbg lx, within lx ->
  word_skip_comment dbg lx = Some (skip_comment lx) /\ within (fst (skip_comment lx)).
Proof.
  intros dbg lx H. unfold word_skip_comment, skip_comment. destruct (lexer_peek lx) as [c|]; auto.
  destruct (Ascii.eqb c "#"); auto. now apply skip_word.
Qed.

Lemma next_token_word : forall dbg lx, within lx ->
  word_lexer_next_token dbg lx = Some (lexer_next_token lx) /\ within (snd (lexer_next_token lx)).
Proof.
  intros dbg lx H. unfold word_lexer_next_token, lexer_next_token, skip_whitespace.
  destruct (skip_word dbg is_whitespace lx H) as [E1 W1]. rewrite E1.
  destruct (skip_while is_whitespace lx) as [lx1 k1]; cbn [fst] in *.
  destruct (comment_word dbg lx1 W1) as [E2 W2]. rewrite E2.
  destruct (skip_comment lx1) as [lx2 k2]; cbn [fst] in *.
  unfold lexer_peek. destruct (nth_error (stream lx2) (stream_position lx2)) as [c|] eqn:E; auto.
  assert (Eu : exists r, skipn (stream_position lx2) (stream lx2) = c :: r).
  { clear - E. revert E. generalize (stream_position lx2) as n. generalize (stream lx2) as s.
    induction s as [|x s IH]; intros [|n] E; cbn in *; try discriminate; eauto. injection E as ->. eauto. }
  destruct Eu as [r Eu].
  destruct (is_newline c).
  - destruct (skipn_cons _ _ _ _ Eu) as (_ & Hlt & _). destruct (within_advance _ _ _ W2 Eu) as [W3 _].
    destruct W2 as (H1 & H2 & H3). unfold fits in H3. rewrite advance_word by lia. auto.
  - unfold word_skip_unless, skip_unless.
    set (g := fun ch : byte => negb (is_whitespace_or_newline ch || Ascii.eqb ch "#")).
    destruct (skip_word dbg g lx2 W2) as [E3 W3]. rewrite E3. destruct (skip_while g lx2) as [lx3 k3]; cbn [fst] in W3.
    destruct (0 <? k3); auto.
Qed.

Definition sound_state (input : bytes) (p : parser lexer_source) (n : nat) : Prop :=
  reached input p /\ within (inner (lexer_state p)) /\ stream (inner (lexer_state p)) = input /\
  exists l, pending (lexer_state p) l /\ length l = n /\ line_number p + n <= length input + 1.

Lemma lex_short : forall input, length (lex input) <= length input.
Proof. intro input. pose proof (lex_fuel input). lia. Qed.

Lemma sound_new : forall input, fits input -> sound_state input (parser_new input) (length (lex input)).
Proof.
  intros input H. split; [constructor|]. split; [unfold within; cbn; repeat split; auto; lia|]. split; auto.
  exists (lex input). split; [apply pending_new|]. split; auto. cbn [line_number parser_new].
  pose proof (lex_short input). lia.
Qed.

Lemma peekable_peek_word : forall dbg p, within (inner p) ->
  word_peekable_peek dbg p = Some (peekable_peek p) /\ within (inner (snd (peekable_peek p))).
Proof.
  intros dbg [lx c] H. unfold word_peekable_peek, peekable_peek; cbn in *. destruct c as [t|]; auto.
  destruct (next_token_word dbg lx H) as [E W]. rewrite E. destruct (lexer_next_token lx); auto.
Qed.

Lemma peekable_next_word : forall dbg p, within (inner p) ->
  word_peekable_next dbg p = Some (peekable_next p) /\ within (inner (snd (peekable_next p))).
Proof.
  intros dbg [lx c] H. unfold word_peekable_next, peekable_next; cbn in *. destruct c as [t|]; auto.
  destruct (next_token_word dbg lx H) as [E W]. rewrite E. destruct (lexer_next_token lx); auto.
Qed.

Lemma peek_eq : forall K (p : parser lexer_source),
  peek (K := K) p = (Ok (fst (peekable_peek (lexer_state p))),
                     mkParser (S := lexer_source) (line_number p) (snd (peekable_peek (lexer_state p)))).
Proof. intros K p. unfold peek; cbn [ts_peek lexer_source]. now destruct (peekable_peek (lexer_state p)). Qed.

Definition line_with (t : option bytes) (n : nat) : nat :=
  match t with Some v => if bytes_eqb v nl then n + 1 else n | None => n end.

Lemma next_eq : forall K (p : parser lexer_source),
  next (K := K) p = (Ok (fst (peekable_next (lexer_state p))),
                     mkParser (S := lexer_source) (line_with (fst (peekable_next (lexer_state p))) (line_number p))
                       (snd (peekable_next (lexer_state p)))).
Proof. intros K p. unfold next; cbn [ts_next lexer_source]. now destruct (peekable_next (lexer_state p)). Qed.

Lemma stream_peek : forall p, stream (inner (snd (peekable_peek p))) = stream (inner p).
Proof.
  intros [lx c]. unfold peekable_peek; cbn. destruct c; auto.
  pose proof (next_token_stream lx). now destruct (lexer_next_token lx).
Qed.

Lemma stream_next : forall p, stream (inner (snd (peekable_next p))) = stream (inner p).
Proof.
  intros [lx c]. unfold peekable_next; cbn. destruct c; auto.
  pose proof (next_token_stream lx). now destruct (lexer_next_token lx).
Qed.

Lemma sound_peek : forall K input p n, sound_state input p n -> sound_state input (snd (peek (K := K) p)) n.
Proof.
  intros K input p n (H1 & H2 & H3 & l & H4 & H5 & H6). split.
  - replace (snd (peek (K := K) p)) with (snd (peek (K := Empty_set) p)) by now rewrite !peek_eq. now constructor.
  - rewrite peek_eq; cbn [snd lexer_state line_number].
    destruct (peekable_peek_word true _ H2) as [_ W]. split; auto.
    split; [now rewrite stream_peek|]. exists l. split; [apply pending_peek; exact H4|auto].
Qed.

Lemma sound_next : forall K input p n, sound_state input p n ->
  match fst (next (K := K) p) with
  | Ok (Some _) => exists n', n = Datatypes.S n' /\ sound_state input (snd (next (K := K) p)) n'
  | _ => sound_state input (snd (next (K := K) p)) n
  end.
Proof.
  intros K input p n (H1 & H2 & H3 & l & H4 & H5 & H6).
  assert (R : reached input (snd (next (K := K) p))).
  { replace (snd (next (K := K) p)) with (snd (next (K := Empty_set) p)) by now rewrite !next_eq. now constructor. }
  revert R. rewrite next_eq. cbn [fst snd]. intro R.
  destruct (peekable_next_word true _ H2) as [_ W]. destruct (pending_next _ _ H4) as [Ht Hp].
  pose proof (stream_next (lexer_state p)) as Hs. rewrite H3 in Hs.
  destruct (fst (peekable_next (lexer_state p))) as [t|].
  - destruct l as [|t' l]; [discriminate|]. cbn in H5. exists (length l). split; auto.
    split; auto. split; auto. split; auto. exists l. split; [exact Hp|]. split; auto.
    unfold line_with; cbn [line_number]. destruct (bytes_eqb t nl); lia.
  - destruct l as [|t' l]; [|discriminate]. cbn in H5, Hp.
    split; auto. split; auto. split; auto. exists []. auto.
Qed.

Lemma reached_sound : forall input p, fits input -> reached input p -> exists n, sound_state input p n.
Proof.
  intros input p Hf H. induction H as [|p H (n & IH)|p H (n & IH)].
  - eexists. now apply sound_new.
  - eexists. apply sound_peek; eauto.
  - pose proof (sound_next Empty_set input p n IH) as J. rewrite next_eq in *. cbn [fst snd] in *.
    destruct (fst (peekable_next (lexer_state p))); [destruct J as (n' & _ & J)|]; eauto.
Qed.

Lemma word_parse_run : forall dbg input, fits input ->
  word_parse_objset dbg (fuel_for input) (parser_new input) = parse_objset dbg (fuel_for input) (parser_new input) /\
  reached input (snd (parse_objset dbg (fuel_for input) (parser_new input))).
Proof.
  intros dbg input Hf.
  destruct (agree_objset (S := lexer_source) (sound_state input) (fun p n => sound_peek _ input p n)
              (fun p n => sound_next _ input p n) dbg (fuel_for input) (length input) Hf (length (lex input))
              (lex_short input) (parser_new input) (sound_new input Hf)) as (E & n' & _ & (R & _) & _).
  auto.
Qed.

Lemma word_parse_same : forall dbg input, fits input -> word_parse dbg input = parse dbg input.
Proof. intros dbg input H. unfold word_parse, parse. now rewrite (proj1 (word_parse_run dbg input H)). Qed.

Lemma word_calls_same : forall K dbg input p, fits input -> reached input p ->
  (forall t q, word_peek dbg p = Some (t, q) <-> peek (K := K) p = (Ok t, q)) /\
  (forall t q, word_next dbg p = Some (t, q) <-> next (K := K) p = (Ok t, q)).
Proof.
  intros K dbg input p Hf Hr. destruct (reached_sound input p Hf Hr) as (n & H1 & H2 & H3 & l & H4 & H5 & H6).
  rewrite peek_eq, next_eq. unfold word_peek, word_next.
  destruct (peekable_peek_word dbg _ H2) as [E1 _], (peekable_next_word dbg _ H2) as [E2 _]. rewrite E1, E2.
  unfold fits in Hf. split; intros t q.
  - destruct (peekable_peek (lexer_state p)); cbn. split; intro H; inversion H; auto.
  - destruct (pending_next _ _ H4) as [Ht _].
    destruct (peekable_next (lexer_state p)) as [[v|] s]; cbn in *.
    + assert (n <> 0) by (destruct l; [discriminate|]; cbn in H5; lia).
      destruct (bytes_eqb v nl); [rewrite word_add_small by (unfold isize_max; lia)|]; split; intro H'; inversion H'; auto.
    + split; intro H'; inversion H'; auto.
Qed.

(** ** mtl.rs *)
From Verif Require MtlModel.

Section Moves.
Context (P : parser lexer_source -> Prop).

Definition keeps {K A} (m : M lexer_source K A) : Prop := forall p, P p -> P (snd (m p)).

Context (P_peek : forall K p, P p -> P (snd (peek (K := K) p))).
Context (P_next : forall K p, P p -> P (snd (next (K := K) p))).

Lemma keeps_ret : forall K A (a : A), keeps (K := K) (ret a).
Proof. intros K A a p H. exact H. Qed.
Lemma keeps_error : forall K A (k : K) msg, keeps (A := A) (error k msg).
Proof. intros K A k msg p H. exact H. Qed.
Lemma keeps_peek : forall K, keeps (K := K) peek.
Proof. intros K p H. now apply P_peek. Qed.
Lemma keeps_next : forall K, keeps (K := K) next.
Proof. intros K p H. now apply P_next. Qed.
Lemma keeps_bind : forall K A B (m : M lexer_source K A) (f : A -> M lexer_source K B),
  keeps m -> (forall a, keeps (f a)) -> keeps (bind m f).
Proof.
  intros K A B m f Hm Hf p H. specialize (Hm p H). unfold bind.
  destruct (m p) as [[a|e|y|] p']; cbn in *; auto. now apply Hf.
Qed.
Lemma keeps_loop : forall K A B (body : A -> M lexer_source K (step A B)) n a,
  (forall a, keeps (body a)) -> keeps (loop n body a).
Proof.
  intros K A B body n. induction n as [|n IH]; intros a Hb; cbn.
  - intros p H. exact H.
  - apply keeps_bind; auto. intros [a'|b]; [now apply IH|apply keeps_ret].
Qed.

Ltac keeps_walk :=
  repeat (cbn zeta; first
    [ apply keeps_ret | apply keeps_error | apply keeps_peek | apply keeps_next
    | apply keeps_bind; [|intros ?] | apply keeps_loop; intros ?
    | match goal with |- keeps (match ?x with _ => _ end) => destruct x end ]).

Import MtlModel.

Lemma keeps_parse_mtlset : forall fuel, keeps (MtlModel.parse_mtlset fuel).
Proof.
  intros fuel. unfold parse_mtlset, parse_material, parse_material_body, parse_newmtl,
    parse_ambient_component, parse_diffuse_component, parse_specular_component,
    parse_emissive_component, parse_dissolve_component, parse_specular_exponent,
    parse_optical_density, parse_illumination_model, parse_map_ambient, parse_map_diffuse,
    parse_map_specular, parse_map_emissive, parse_map_bump, parse_map_displacement,
    parse_map_dissolve, parse_map_decal, parse_map_specular_exponent, parse_map_name, parse_color,
    MtlModel.parse_f64, MtlModel.parse_usize, MtlModel.expect_tag, MtlModel.next_string,
    skip_zero_or_more_newlines, advance.
  keeps_walk.
Qed.

End Moves.

Lemma mtl_reached : forall input, reached input (snd (MtlModel.parse_mtlset (MtlModel.fuel_for input) (parser_new input))).
Proof.
  intro input. apply keeps_parse_mtlset; [| |constructor].
  - intros K p H. replace (snd (peek (K := K) p)) with (snd (peek (K := Empty_set) p)) by now rewrite !peek_eq. now constructor.
  - intros K p H. replace (snd (next (K := K) p)) with (snd (next (K := Empty_set) p)) by now rewrite !next_eq. now constructor.
Qed.

Lemma word_add_max : forall dbg, word_add dbg (N.to_nat usize_max) 1 = if dbg then None else Some 0.
Proof.
  intro dbg. unfold word_add. replace (N.of_nat (N.to_nat usize_max + 1)) with (2 ^ 64)%N; [|].
  - destruct dbg; reflexivity.
  - rewrite Nat2N.inj_add, N2Nat.id. reflexivity.
Qed.
