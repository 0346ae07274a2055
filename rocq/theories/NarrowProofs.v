(** Words of another size: C81. *)
From Verif Require Import ObjModel UsizeModel NarrowModel NarrowSpec SourceProofs LexerProofs TotalProofs ObjTop Calls UsizeProofs.
Local Open Scope list_scope.

Section Agree.
Context {S : token_source}.
(** [size p n]: the parser has [n] tokens left. *)
Context (size : parser S -> nat -> Prop).
Context (size_peek : forall p n, size p n -> size (snd (peek (K := error_kind) p)) n).
Context (size_next : forall p n, size p n ->
  match fst (next (K := error_kind) p) with
  | Ok (Some _) => exists n', n = Datatypes.S n' /\ size (snd (next (K := error_kind) p)) n'
  | _ => size (snd (next (K := error_kind) p)) n
  end).
Context (bits : Z) (Hbits : (8 <= bits <= 64)%Z) (dbg : bool) (fuel : nat) (total : nat) (Htotal : (Z.of_nat total <= largest_isize bits)%Z).

Local Notation M := (M S error_kind).

(** What the two end with, started with [n] tokens left; [Q] holds of a result and
    the number of tokens left. *)
Inductive related {A} (L : A -> Prop) (Q : A -> nat -> Prop) (n : nat) :
  outcome (parse_error error_kind) A * parser S -> outcome (parse_error error_kind) A * parser S -> Prop :=
| rel_ok a q n' : n' <= n -> size q n' -> Q a n' -> related L Q n (Ok a, q) (Ok a, q)
| rel_err e e' q n' : n' <= n -> size q n' -> same_error e e' -> related L Q n (Err e, q) (Err e', q)
| rel_panic x q q' : related L Q n (Panic x, q) (Panic x, q')
| rel_diverge q q' : related L Q n (Diverge, q) (Diverge, q')
| rel_smoothing e q r : smoothing_too_large bits e -> (forall a q', r = (Ok a, q') -> L a) -> related L Q n (Err e, q) r
| rel_narrow q r : dbg = true -> related L Q n (Panic PanicOverflow, q) r
| rel_wide q r : dbg = true -> related L Q n r (Panic PanicOverflow, q).

(** [L]: the result has a smoothing group that is too large. *)
Definition agreeL {A} (L : A -> Prop) (n : nat) (m' m : M A) (Q : A -> nat -> Prop) : Prop :=
  forall p, size p n -> related L Q n (m' p) (m p).

Local Notation agree := (agreeL (fun _ => False)).

Definition ensures {A} (m : M A) (L : A -> Prop) : Prop := forall p a q, m p = (Ok a, q) -> L a.

Lemma same_error_refl : forall e, same_error e e.
Proof. intros e. split; auto. Qed.

Lemma agree_ret : forall A L n (a : A) (Q : A -> nat -> Prop), Q a n -> agreeL L n (ret a) (ret a) Q.
Proof. intros A L n a Q H p Hp. now apply rel_ok with n. Qed.

Lemma agree_error : forall A L n k msg (Q : A -> nat -> Prop), agreeL L n (error k msg) (error k msg) Q.
Proof. intros A L n k msg Q p Hp. apply rel_err with n; auto. apply same_error_refl. Qed.

Lemma agree_panics : forall A n x (Q : A -> nat -> Prop), agree n (panics x) (panics x) Q.
Proof. intros A n x Q p Hp. constructor. Qed.

Lemma agree_diverge : forall A L n (Q : A -> nat -> Prop), agreeL L n diverge diverge Q.
Proof. intros A L n Q p Hp. constructor. Qed.

Lemma related_le : forall A (L : A -> Prop) (Q : A -> nat -> Prop) n n' r r', n' <= n -> related L Q n' r r' -> related L Q n r r'.
Proof.
  intros A L Q n n' r r' Hn H. destruct H as [a q k|e e' q k| | | | |];
    [apply rel_ok with k|apply rel_err with k|apply rel_panic|apply rel_diverge|apply rel_smoothing|apply rel_narrow|apply rel_wide]; auto; lia.
Qed.

Lemma agreeL_bind : forall A B L1 L n (m' m : M A) (f' f : A -> M B) Q R,
  agreeL L1 n m' m Q -> (forall a, L1 a -> ensures (f a) L) ->
  (forall a n', n' <= n -> Q a n' -> agreeL L n' (f' a) (f a) R) ->
  agreeL L n (bind m' f') (bind m f) R.
Proof.
  intros A B L1 L n m' m f' f Q R Hm HL Hf p Hp. specialize (Hm p Hp). unfold bind.
  inversion Hm as [a q k Hk Hs HQ E1 E2|e e' q k Hk Hs He E1 E2|x q q' E1 E2|q q' E1 E2|e q r He Hr E1 E2|q r Hd E1 E2|q r Hd E1 E2].
  - apply related_le with k; auto. now apply Hf.
  - now apply rel_err with k.
  - apply rel_panic.
  - apply rel_diverge.
  - apply rel_smoothing; auto. intros b q'. destruct (m p) as [[a|x|x|] p']; try discriminate. intro E.
    apply (HL a (Hr a p' eq_refl) p' b q' E).
  - now apply rel_narrow.
  - now apply rel_wide.
Qed.

Lemma agree_bind : forall A B L n (m' m : M A) (f' f : A -> M B) Q R,
  agree n m' m Q -> (forall a n', n' <= n -> Q a n' -> agreeL L n' (f' a) (f a) R) ->
  agreeL L n (bind m' f') (bind m f) R.
Proof. intros A B L n m' m f' f Q R Hm Hf. eapply agreeL_bind; [exact Hm| |exact Hf]. intros a []. Qed.

Lemma agree_weaken : forall A L n (m' m : M A) (Q R : A -> nat -> Prop),
  agree n m' m Q -> (forall a n', n' <= n -> Q a n' -> R a n') -> agreeL L n m' m R.
Proof.
  intros A L n m' m Q R H HR p Hp. specialize (H p Hp).
  destruct H as [a q k|e e' q k| | |e q r He Hr| |];
    [apply rel_ok with k|apply rel_err with k|apply rel_panic|apply rel_diverge|apply rel_smoothing|apply rel_narrow|apply rel_wide]; auto.
  intros a q' E. destruct (Hr a q' E).
Qed.

Lemma ensures_bind : forall A B (m : M A) (f : A -> M B) P L,
  ensures m P -> (forall a, P a -> ensures (f a) L) -> ensures (bind m f) L.
Proof.
  intros A B m f P L Hm Hf p b q. unfold bind. specialize (Hm p). destruct (m p) as [[a|x|x|] p']; try discriminate.
  intro E. apply (Hf a (Hm a p' eq_refl) p' b q E).
Qed.

Lemma ensures_ret : forall A (a : A) (L : A -> Prop), L a -> ensures (ret a) L.
Proof. intros A a L H p b q E. now injection E as <- _. Qed.

Lemma ensures_error : forall A k msg (L : A -> Prop), ensures (error k msg) L.
Proof. intros A k msg L p b q E. discriminate E. Qed.

Lemma ensures_any : forall A (m : M A), ensures m (fun _ => True).
Proof. intros A m p b q E. exact I. Qed.

Lemma ensures_then : forall A B (m : M A) (f : A -> M B) L, (forall a, ensures (f a) L) -> ensures (bind m f) L.
Proof. intros A B m f L H. eapply ensures_bind; [apply ensures_any|auto]. Qed.

Definition of_step {A B} (LA : A -> Prop) (LB : B -> Prop) (r : step A B) : Prop :=
  match r with Continue a => LA a | Break b => LB b end.

Lemma ensures_loop : forall A B (body : A -> M (step A B)) (LA : A -> Prop) (LB : B -> Prop) f a,
  (forall a, LA a -> ensures (body a) (of_step LA LB)) -> LA a -> ensures (loop f body a) LB.
Proof.
  intros A B body LA LB f. induction f as [|f IH]; intros a Hb Ha; cbn; [intros p b q E; discriminate E|].
  eapply ensures_bind; [apply Hb; auto|]. intros [a'|b] H; cbn in H; [now apply IH|now apply ensures_ret].
Qed.

(** No error about smoothing groups. *)
Definition quiet {A} (m : M A) : Prop :=
  forall p, match fst (m p) with Err e => err_kind e <> SmoothingGroupNameMustBeOffOrInteger | _ => True end.

Lemma quiet_ret : forall A (a : A), quiet (ret a).
Proof. intros A a p. exact I. Qed.

Lemma quiet_error : forall A k msg, k <> SmoothingGroupNameMustBeOffOrInteger -> quiet (A := A) (error k msg).
Proof. intros A k msg H p. exact H. Qed.

Lemma quiet_panics : forall A x, quiet (A := A) (panics x).
Proof. intros A x p. exact I. Qed.

Lemma quiet_next : quiet next.
Proof. intros p. unfold next. now destruct (ts_next S (lexer_state p)). Qed.

Lemma quiet_bind : forall A B (m : M A) (f : A -> M B), quiet m -> (forall a, quiet (f a)) -> quiet (bind m f).
Proof.
  intros A B m f Hm Hf p. specialize (Hm p). unfold bind. destruct (m p) as [[a|e|x|] q]; cbn in *; auto. apply Hf.
Qed.

Lemma agree_catch : forall A B n (m' m : M A) (f' f : A + parse_error error_kind -> M B) Q R,
  agree n m' m Q -> quiet m' -> (forall a n', n' <= n -> Q a n' -> agree n' (f' (inl a)) (f (inl a)) R) ->
  (forall e e' n', n' <= n -> same_error e e' -> agree n' (f' (inr e)) (f (inr e')) R) ->
  agree n (bind (catch m') f') (bind (catch m) f) R.
Proof.
  intros A B n m' m f' f Q R Hm Hq Hf He p Hp. specialize (Hm p Hp). specialize (Hq p). unfold bind, catch.
  inversion Hm as [a q k Hk Hs HQ E1 E2|e e' q k Hk Hs Hse E1 E2|x q q' E1 E2|q q' E1 E2|e q r Hse Hr E1 E2|q r Hd E1 E2|q r Hd E1 E2].
  - apply related_le with k; auto. now apply Hf.
  - apply related_le with k; auto. now apply He.
  - apply rel_panic.
  - apply rel_diverge.
  - exfalso. rewrite <- E1 in Hq. cbn in Hq. now destruct Hse.
  - now apply rel_narrow.
  - now apply rel_wide.
Qed.

Lemma agree_from_error : forall A n e e' (Q : A -> nat -> Prop), same_error e e' -> agree n (from_result (inr e)) (from_result (inr e')) Q.
Proof. intros A n e e' Q H p Hp. now apply rel_err with n. Qed.

Lemma agree_peek : forall n, agree n peek peek (fun _ n' => n' = n).
Proof.
  intros n p Hp. pose proof (size_peek p n Hp) as H. unfold peek in *. destruct (ts_peek S (lexer_state p)). now apply rel_ok with n.
Qed.

Lemma agree_next : forall n, agree n next next (fun t n' => match t with Some _ => n = Datatypes.S n' | None => n' = n end).
Proof.
  intros n p Hp. pose proof (size_next p n Hp) as H. unfold next in *. destruct (ts_next S (lexer_state p)) as [[t|] s]; cbn in H.
  - destruct H as (n' & -> & H). apply rel_ok with n'; auto.
  - apply rel_ok with n; auto.
Qed.

Lemma agreeL_loop : forall A B (body' body : A -> M (step A B)) (I : A -> nat -> Prop) (Q : B -> nat -> Prop) LA LB f n a,
  (forall a n', n' <= n -> I a n' ->
     agreeL (of_step LA LB) n' (body' a) (body a) (fun r n2 => match r with Continue a' => I a' n2 | Break b => Q b n2 end)) ->
  (forall a, LA a -> ensures (body a) (of_step LA LB)) ->
  I a n -> agreeL LB n (loop f body' a) (loop f body a) Q.
Proof.
  intros A B body' body I Q LA LB f. induction f as [|f IH]; intros n a Hb HL Ha; cbn; [apply agree_diverge|].
  eapply agreeL_bind; [apply Hb; auto| |].
  - intros [a'|b] H; cbn in H; [now apply ensures_loop with LA|now apply ensures_ret].
  - intros [a'|b] n' Hn H; cbn in H; [|now apply agree_ret].
    apply IH; auto. intros a2 n2 Hn2. apply Hb. lia.
Qed.

Lemma agree_loop : forall A B (body' body : A -> M (step A B)) (I : A -> nat -> Prop) (Q : B -> nat -> Prop) f n a,
  (forall a n', n' <= n -> I a n' ->
     agree n' (body' a) (body a) (fun r n2 => match r with Continue a' => I a' n2 | Break b => Q b n2 end)) ->
  I a n -> agree n (loop f body' a) (loop f body a) Q.
Proof.
  intros A B body' body I Q f n a Hb Ha. apply agreeL_loop with (I := I) (LA := fun _ => False); auto.
  - intros a2 n2 Hn2 H2. eapply agree_weaken; [now apply Hb|auto].
  - intros a2 [].
Qed.

Lemma agree_for_each : forall A X (body' body : A -> X -> M A) (I : A -> list X -> Prop) n xs a,
  (forall a x r n', n' <= n -> I a (x :: r) -> agree n' (body' a x) (body a x) (fun a' _ => I a' r)) ->
  I a xs -> agree n (for_each xs body' a) (for_each xs body a) (fun a' _ => I a' []).
Proof.
  intros A X body' body I n xs. revert n. induction xs as [|x xs IH]; intros n a Hb Ha; cbn; [now apply agree_ret|].
  eapply agree_bind; [apply (Hb a x xs n); auto|]. intros a' n' Hn H; cbn in H. apply IH; auto.
  intros a2 y r n2 Hn2. apply Hb. lia.
Qed.

(** The additions. *)
Lemma narrow_add_small : forall a b, a + b <= total -> narrow_add (S := S) bits dbg a b = ret (a + b).
Proof.
  intros a b H. unfold narrow_add. rewrite (proj2 (Z.leb_le _ _)); auto.
  unfold largest_isize in Htotal. unfold word_max. assert (2 ^ (bits - 1) <= 2 ^ bits)%Z by (apply Z.pow_le_mono_r; lia). lia.
Qed.

Lemma agree_add : forall n a b (Q : nat -> nat -> Prop), a + b <= total -> Q (a + b) n ->
  agree n (narrow_add bits dbg a b) (ret (a + b)) Q.
Proof.
  intros n a b Q H HQ. rewrite narrow_add_small by lia. now apply agree_ret.
Qed.

(** An addition in the middle of a computation that goes on with its value. *)
Lemma agree_add_bind : forall B L n a b (f' : nat -> M B) (m : M B) Q, a + b <= total ->
  agreeL L n (f' (a + b)) m Q -> agreeL L n (bind (narrow_add bits dbg a b) f') m Q.
Proof.
  intros B L n a b f' m Q H Hf. intros p Hp. unfold bind. rewrite narrow_add_small by lia. now apply Hf.
Qed.

(** Code without additions. *)
Lemma agree_debug_assert : forall n b, agree n (debug_assert dbg b) (debug_assert dbg b) (fun _ _ => True).
Proof. intros n b. unfold debug_assert. destruct (dbg && negb b); [apply agree_panics|now apply agree_ret]. Qed.

Lemma agree_index : forall A n (v : list A) i, agree n (index v i) (index v i) (fun _ _ => i < length v).
Proof.
  intros A n v i. unfold index. destruct (nth_error v i) eqn:E; [|apply agree_panics].
  apply agree_ret. apply nth_error_Some. congruence.
Qed.

Lemma agree_len_minus : forall A n (v : list A) k, agree n (len_minus dbg v k) (len_minus dbg v k) (fun m _ => m + k = length v).
Proof.
  intros A n v k. unfold len_minus. destruct (k <=? length v) eqn:E; [|apply agree_panics].
  apply agree_ret. apply Nat.leb_le in E. lia.
Qed.

Lemma agree_next_string : forall n, agree n next_string next_string (fun _ n' => n = Datatypes.S n').
Proof.
  intros n. unfold next_string. eapply agree_bind; [apply agree_next|cbv beta].
  intros [t|] n' Hn H; [now apply agree_ret|apply agree_error].
Qed.

Lemma quiet_next_string : quiet next_string.
Proof. apply quiet_bind; [apply quiet_next|]. intros [t|]; [apply quiet_ret|now apply quiet_error]. Qed.

Lemma agree_expect_tag : forall n tag, agree n (expect_tag tag) (expect_tag tag) (fun _ n' => n = Datatypes.S n').
Proof.
  intros n tag. unfold expect_tag. eapply agree_bind; [apply agree_next|cbv beta].
  intros [t|] n' Hn H; [|apply agree_error]. destruct (negb (bytes_eqb t tag)); [apply agree_error|now apply agree_ret].
Qed.

Lemma agree_parse_f64 : forall n, agree n parse_f64 parse_f64 (fun _ n' => n = Datatypes.S n').
Proof.
  intros n. unfold parse_f64. eapply agree_bind; [apply agree_next_string|cbv beta].
  intros t n' Hn H. destruct (RustStd.parse_f64 t); [now apply agree_ret|apply agree_error].
Qed.

Lemma agree_advance : forall n, agree n advance advance (fun _ _ => True).
Proof. intros n. eapply agree_bind; [apply agree_next|cbv beta]. intros; now apply agree_ret. Qed.

Lemma agree_try_once : forall T (f : bytes -> option T) n, agree n (try_once f) (try_once f) (fun _ _ => True).
Proof.
  intros T f n. unfold try_once. eapply agree_bind; [apply agree_peek|cbv beta].
  intros [t|] n' Hn H; [|now apply agree_ret]. destruct (f t); [|now apply agree_ret].
  eapply agree_bind; [apply agree_advance|cbv beta]. intros; now apply agree_ret.
Qed.

Lemma agree_skip : forall f n, agreeL (A := unit) (fun _ => False) n (skip_zero_or_more_newlines f) (skip_zero_or_more_newlines f) (fun _ _ => True).
Proof.
  intros f n. apply agree_loop with (I := fun _ _ => True); auto. intros [] n' Hn _.
  eapply agree_bind; [apply agree_peek|cbv beta]. intros t n2 Hn2 _. destruct (is_nl t); [|now apply agree_ret].
  eapply agree_bind; [apply agree_advance|cbv beta]. intros; now apply agree_ret.
Qed.

Lemma agree_skip_one : forall f n, agree n (skip_one_or_more_newlines f) (skip_one_or_more_newlines f) (fun _ _ => True).
Proof.
  intros f n. eapply agree_bind; [apply agree_expect_tag|cbv beta]. intros ? n' Hn _.
  eapply agree_bind; [apply agree_skip|cbv beta]. intros; now apply agree_ret.
Qed.

Lemma agree_object_name : forall f n, agree n (parse_object_name f) (parse_object_name f) (fun _ _ => True).
Proof.
  intros f n. unfold parse_object_name. eapply agree_bind; [apply agree_peek|cbv beta].
  intros t n' Hn _. destruct (is_tok t "o"); [|now apply agree_ret].
  eapply agree_bind; [apply agree_expect_tag|cbv beta]. intros ? n2 Hn2 _.
  eapply agree_catch; [apply agree_next_string|apply quiet_next_string| |].
  - intros w n3 Hn3 _. eapply agree_bind; [apply agree_skip_one|cbv beta]. intros ? n4 Hn4 _. now apply agree_ret.
  - intros e e' n3 Hn3 He. eapply agree_bind; [apply agree_skip_one|cbv beta]. intros ? n4 Hn4 _. now apply agree_from_error.
Qed.

Lemma agree_vertex : forall n, agree n parse_vertex parse_vertex (fun _ n' => n' < n).
Proof.
  intros n. unfold parse_vertex. eapply agree_bind; [apply agree_expect_tag|cbv beta]. intros ? n0 Hn0 H0.
  do 3 (eapply agree_bind; [apply agree_parse_f64|cbv beta]; intros).
  eapply agree_bind; [apply agree_try_once|cbv beta]. intros. apply agree_ret. lia.
Qed.

Lemma agree_texture_vertex : forall n, agree n parse_texture_vertex parse_texture_vertex (fun _ n' => n' < n).
Proof.
  intros n. unfold parse_texture_vertex. eapply agree_bind; [apply agree_expect_tag|cbv beta]. intros ? n0 Hn0 H0.
  eapply agree_bind; [apply agree_parse_f64|cbv beta]; intros.
  do 2 (eapply agree_bind; [apply agree_try_once|cbv beta]; intros). apply agree_ret. lia.
Qed.

Lemma agree_normal_vertex : forall n, agree n parse_normal_vertex parse_normal_vertex (fun _ n' => n' < n).
Proof.
  intros n. unfold parse_normal_vertex. eapply agree_bind; [apply agree_expect_tag|cbv beta]. intros ? n0 Hn0 H0.
  do 3 (eapply agree_bind; [apply agree_parse_f64|cbv beta]; intros). apply agree_ret. lia.
Qed.

(** A smoothing group that is too large. *)
Definition big (l : list N) : Prop := List.Exists (fun k => (largest_usize bits < Z.of_N k)%Z) l.

Lemma agree_smoothing_group : forall n l,
  agreeL (fun r => big (snd r)) n (narrow_parse_smoothing_group bits l) (parse_smoothing_group l) (fun _ n' => n' < n).
Proof.
  intros n l. unfold narrow_parse_smoothing_group, parse_smoothing_group. eapply agree_bind; [apply agree_expect_tag|cbv beta]. intros ? n0 Hn0 H0.
  eapply agree_bind; [apply agree_next|cbv beta]. intros [t|] n1 Hn1 H1; [|apply agree_error].
  destruct (bytes_eqb t (lit "off")); [apply agree_ret; lia|cbv beta].
  unfold narrow_usize. destruct (parse_usize t) as [k|] eqn:E; [|apply agree_error].
  destruct (Z.of_N k <=? word_max bits)%Z eqn:E'; [apply agree_ret; lia|].
  apply Z.leb_gt in E'. intros p Hp. apply rel_smoothing.
  - split; [reflexivity|]. exists t, k. split; [exact E|]. split; [exact E'|reflexivity].
  - intros x0 q0 Hx. injection Hx as <- _. unfold big. cbn [snd]. apply Exists_app. right. constructor. exact E'.
Qed.

Lemma keeps_smoothing_group : forall l, big l -> ensures (parse_smoothing_group l) (fun r => big (snd r)).
Proof.
  intros l H. unfold parse_smoothing_group. apply ensures_then. intros _. apply ensures_then. intros [t|]; [|apply ensures_error].
  destruct (bytes_eqb t (lit "off")); [|destruct (parse_usize t); [|apply ensures_error]];
    apply ensures_ret; unfold big; cbn [snd]; apply Exists_app; now left.
Qed.

Lemma agree_material_name : forall n l, agree n (parse_material_name l) (parse_material_name l) (fun _ n' => n' < n).
Proof.
  intros n l. unfold parse_material_name. eapply agree_bind; [apply agree_expect_tag|cbv beta]. intros ? n0 Hn0 H0.
  eapply agree_bind; [apply agree_next|cbv beta]. intros [t|] n1 Hn1 H1; [|apply agree_error]. apply agree_ret. lia.
Qed.

Lemma agree_verify : forall n l, agree n (verify_vtn_indices l) (verify_vtn_indices l) (fun _ _ => True).
Proof.
  intros n l. unfold verify_vtn_indices. apply agree_for_each with (I := fun _ _ => True); auto.
  intros a x r n' Hn _. destruct a; [|now apply agree_ret].
  do 2 (eapply agree_bind; [apply agree_index|cbv beta]; intros). now apply agree_ret.
Qed.

Lemma agree_shape_entries : forall n es gs ss, agree n (parse_shape_entries dbg es gs ss) (parse_shape_entries dbg es gs ss) (fun _ _ => True).
Proof.
  intros n es gs ss. unfold parse_shape_entries.
  eapply agree_bind.
  { apply agree_for_each with (I := fun _ _ => True); auto. intros a [[x y] [u v]] r n' Hn _.
    apply agree_for_each with (I := fun _ _ => True); auto. intros. now apply agree_ret. }
  intros t n1 Hn1 _. eapply agree_bind; [apply agree_debug_assert|cbv beta]. intros ? n2 Hn2 _.
  eapply agree_bind.
  { apply agree_for_each with (I := fun _ _ => True); auto. intros ? [[x y] u] r n' Hn _.
    apply agree_for_each with (I := fun _ _ => True); auto. intros.
    eapply agree_bind; [apply agree_index|cbv beta]. intros. now apply agree_ret. }
  intros t2 n3 Hn3 _. eapply agree_bind; [apply agree_debug_assert|cbv beta]. intros. now apply agree_ret.
Qed.

Lemma agree_geometries : forall n es ms, agree n (parse_geometries es ms) (parse_geometries es ms) (fun _ _ => True).
Proof.
  intros n es ms. unfold parse_geometries. apply agree_for_each with (I := fun _ _ => True); auto.
  intros ? [[x y] u] r n' Hn _. eapply agree_bind; [apply agree_index|cbv beta]. intros. now apply agree_ret.
Qed.

(** ** The functions with additions and casts *)

Definition small (r : nat * nat) : Prop := fst r <= total /\ snd r <= total.

(** An index in the range is the same number for both; any other one is an error, or
    overflows in a debug build. *)
Definition index_in (r : nat * nat) (z : Z) : Prop := (Z.of_nat (fst r) < z <= Z.of_nat (snd r))%Z.

Definition outside {A} (x : outcome (parse_error error_kind) A * parser S) (p : parser S) : Prop :=
  (exists msg, x = (Err (mkParseError (line_number p) VTNIndexOutOfRange msg), p)) \/
  dbg = true /\ x = (Panic PanicOverflow, p).

Lemma sizes : (2 ^ bits = 2 * 2 ^ (bits - 1) /\ 128 <= 2 ^ (bits - 1) <= 2 ^ 63)%Z.
Proof.
  split.
  - replace bits with (Z.succ (bits - 1)) at 1 by lia. apply Z.pow_succ_r. lia.
  - change 128%Z with (2 ^ 7)%Z. split; apply Z.pow_le_mono_r; lia.
Qed.

Lemma wide_inside : forall r z p, small r -> index_in r z -> calculate_index (S := S) dbg r z p = (Ok (Z.to_nat (z - 1 - Z.of_nat (fst r))), p).
Proof.
  intros [a b] z p [Ha Hb] Hz; unfold index_in in Hz; cbn [fst snd] in *. pose proof sizes as W. unfold largest_isize in Htotal.
  unfold calculate_index. rewrite (proj2 (Z.leb_gt _ _)) by lia. unfold isize_sub, in_isize, isize_min, isize_max.
  rewrite (proj2 (Z.leb_le (- 2 ^ 63) (z - 1))), (proj2 (Z.leb_le (z - 1) (2 ^ 63 - 1))) by lia. cbn [andb].
  unfold bind at 1. unfold ret at 1. rewrite (proj2 (Z.leb_le (Z.of_nat a) (z - 1))), (proj2 (Z.ltb_lt (z - 1) (Z.of_nat b))) by lia. cbn [andb].
  unfold debug_assert. rewrite (proj2 (Z.leb_le 0 (z - 1))) by lia. rewrite andb_false_r. unfold bind at 1. unfold ret at 1.
  rewrite (proj2 (Z.leb_le (- 2 ^ 63) (z - 1 - Z.of_nat a))), (proj2 (Z.leb_le (z - 1 - Z.of_nat a) (2 ^ 63 - 1))) by lia. reflexivity.
Qed.

Lemma wide_outside : forall r z p, small r -> in_isize z = true -> ~ index_in r z -> outside (calculate_index (S := S) dbg r z p) p.
Proof.
  intros [a b] z p [Ha Hb] Hi Hz; unfold index_in in Hz; cbn [fst snd] in *. pose proof sizes as W. unfold largest_isize in Htotal.
  unfold in_isize, isize_min, isize_max in Hi. apply andb_prop in Hi. destruct Hi as [I1 I2]. apply Z.leb_le in I1, I2.
  unfold calculate_index. unfold isize_sub.
  destruct (z <=? 0)%Z eqn:Z0; [apply Z.leb_le in Z0|apply Z.leb_gt in Z0].
  - destruct (in_isize (Z.of_nat b - z)) eqn:I.
    + left. eexists. unfold bind at 1. unfold ret at 1. rewrite (proj2 (Z.ltb_ge (Z.of_nat b - z) (Z.of_nat b))) by lia. rewrite andb_false_r. reflexivity.
    + destruct dbg eqn:D; [right; split; [exact D|reflexivity]|]. left. eexists. unfold bind at 1. unfold ret at 1.
      assert (V : (wrap_isize (Z.of_nat b - z) < 0)%Z).
      { unfold in_isize, isize_min, isize_max in I. apply andb_false_iff in I. unfold wrap_isize.
        assert (2 ^ 63 - 1 < Z.of_nat b - z)%Z by (destruct I as [I|I]; apply Z.leb_gt in I; lia).
        replace (Z.of_nat b - z + 2 ^ 63)%Z with ((Z.of_nat b - z - 2 ^ 63) + 1 * 2 ^ 64)%Z by lia.
        rewrite Z.mod_add by lia. rewrite Z.mod_small by lia. lia. }
      rewrite (proj2 (Z.leb_gt (Z.of_nat a) _)) by lia. reflexivity.
  - unfold in_isize, isize_min, isize_max.
    rewrite (proj2 (Z.leb_le (- 2 ^ 63) (z - 1))), (proj2 (Z.leb_le (z - 1) (2 ^ 63 - 1))) by lia. cbn [andb].
    left. eexists. unfold bind at 1. unfold ret at 1.
    replace ((Z.of_nat a <=? z - 1)%Z && (z - 1 <? Z.of_nat b)%Z) with false; [reflexivity|].
    symmetry. apply andb_false_iff. rewrite Z.leb_gt, Z.ltb_ge. lia.
Qed.

Lemma cast_small : forall n, n <= total -> cast_isize bits n = Z.of_nat n.
Proof.
  intros n H. pose proof sizes as W. unfold largest_isize in Htotal. unfold cast_isize, wrap_int. rewrite Z.mod_small; lia.
Qed.

Lemma narrow_inside : forall r z p, small r -> index_in r z -> narrow_calculate_index (S := S) bits dbg r z p = (Ok (Z.to_nat (z - 1 - Z.of_nat (fst r))), p).
Proof.
  intros [a b] z p [Ha Hb] Hz; unfold index_in in Hz; cbn [fst snd] in *. pose proof sizes as W. unfold largest_isize in Htotal.
  unfold narrow_calculate_index. rewrite !cast_small by lia. rewrite (proj2 (Z.leb_gt z 0)) by lia. unfold narrow_sub, in_int, int_min, int_max.
  rewrite (proj2 (Z.leb_le (- 2 ^ (bits - 1)) (z - 1))), (proj2 (Z.leb_le (z - 1) (2 ^ (bits - 1) - 1))) by lia. cbn [andb].
  unfold bind at 1. unfold ret at 1. rewrite (proj2 (Z.leb_le (Z.of_nat a) (z - 1))), (proj2 (Z.ltb_lt (z - 1) (Z.of_nat b))) by lia. cbn [andb].
  unfold debug_assert. rewrite (proj2 (Z.leb_le 0 (z - 1))) by lia. rewrite andb_false_r. unfold bind at 1. unfold ret at 1.
  rewrite (proj2 (Z.leb_le (- 2 ^ (bits - 1)) (z - 1 - Z.of_nat a))), (proj2 (Z.leb_le (z - 1 - Z.of_nat a) (2 ^ (bits - 1) - 1))) by lia. cbn [andb].
  unfold bind, ret, cast_usize. rewrite Z.mod_small by lia. reflexivity.
Qed.

Lemma narrow_outside : forall r z p, small r -> in_int bits z = true -> ~ index_in r z -> outside (narrow_calculate_index (S := S) bits dbg r z p) p.
Proof.
  intros [a b] z p [Ha Hb] Hi Hz; unfold index_in in Hz; cbn [fst snd] in *. pose proof sizes as W. unfold largest_isize in Htotal.
  unfold in_int, int_min, int_max in Hi. apply andb_prop in Hi. destruct Hi as [I1 I2]. apply Z.leb_le in I1, I2.
  unfold narrow_calculate_index. rewrite !cast_small by lia. unfold narrow_sub.
  destruct (z <=? 0)%Z eqn:Z0; [apply Z.leb_le in Z0|apply Z.leb_gt in Z0].
  - destruct (in_int bits (Z.of_nat b - z)) eqn:I.
    + left. eexists. unfold bind at 1. unfold ret at 1. rewrite (proj2 (Z.ltb_ge (Z.of_nat b - z) (Z.of_nat b))) by lia. rewrite andb_false_r. reflexivity.
    + destruct dbg eqn:D; [right; split; [exact D|reflexivity]|]. left. eexists. unfold bind at 1. unfold ret at 1.
      assert (V : (wrap_int bits (Z.of_nat b - z) < 0)%Z).
      { unfold in_int, int_min, int_max in I. apply andb_false_iff in I. unfold wrap_int.
        assert (2 ^ (bits - 1) - 1 < Z.of_nat b - z)%Z by (destruct I as [I|I]; apply Z.leb_gt in I; lia).
        replace (Z.of_nat b - z + 2 ^ (bits - 1))%Z with ((Z.of_nat b - z - 2 ^ (bits - 1)) + 1 * 2 ^ bits)%Z by lia.
        rewrite Z.mod_add by lia. rewrite Z.mod_small by lia. lia. }
      rewrite (proj2 (Z.leb_gt (Z.of_nat a) _)) by lia. reflexivity.
  - unfold in_int, int_min, int_max.
    rewrite (proj2 (Z.leb_le (- 2 ^ (bits - 1)) (z - 1))), (proj2 (Z.leb_le (z - 1) (2 ^ (bits - 1) - 1))) by lia. cbn [andb].
    left. eexists. unfold bind at 1. unfold ret at 1.
    replace ((Z.of_nat a <=? z - 1)%Z && (z - 1 <? Z.of_nat b)%Z) with false; [reflexivity|].
    symmetry. apply andb_false_iff. rewrite Z.leb_gt, Z.ltb_ge. lia.
Qed.

Lemma parse_isize_in : forall t z, RustStd.parse_isize t = Some z -> in_isize z = true.
Proof.
  intros t z H. unfold RustStd.parse_isize in H.
  repeat match type of H with
  | context [match ?x with _ => _ end] => destruct x eqn:?; try discriminate
  end; congruence.
Qed.

(** A token that is read as an index. *)
Lemma agree_index_text : forall B n r s (f' f : nat -> M B) Q, small r -> (forall i, agree n (f' i) (f i) Q) ->
  agree n (match narrow_isize bits s with Some z => bind (narrow_calculate_index bits dbg r z) f' | None => error_expected_integer s end)
          (match RustStd.parse_isize s with Some z => bind (calculate_index dbg r z) f | None => error_expected_integer s end) Q.
Proof.
  intros B n r s f' f Q Hr Hf. unfold narrow_isize. destruct (RustStd.parse_isize s) as [z|] eqn:E; [|apply agree_error].
  apply parse_isize_in in E. intros p Hp.
  assert (D : index_in r z \/ ~ index_in r z) by (unfold index_in; lia). destruct D as [D|D].
  - assert (I : in_int bits z = true).
    { destruct Hr as [Ha Hb]. unfold index_in in D. pose proof sizes as W. unfold largest_isize in Htotal. unfold in_int, int_min, int_max. rewrite (proj2 (Z.leb_le _ _)), (proj2 (Z.leb_le _ _)); auto; lia. }
    rewrite I. unfold bind. rewrite (narrow_inside r z p Hr D), (wide_inside r z p Hr D). now apply Hf.
  - destruct (wide_outside r z p Hr E D) as [(msg & Ew)|(Hd & Ew)].
    2:{ unfold bind at 2. rewrite Ew. now apply rel_wide. }
    unfold bind at 2. rewrite Ew. destruct (in_int bits z) eqn:I.
    + destruct (narrow_outside r z p Hr I D) as [(msg' & En)|(Hd & En)]; unfold bind; rewrite En; [|now apply rel_narrow].
      apply rel_err with n; auto. split; [reflexivity|]. right. cbn. auto.
    + apply rel_err with n; auto. split; [reflexivity|]. right. cbn. auto.
Qed.

Lemma agree_process_next : forall n ss r, small r ->
  agree n (narrow_process_next bits dbg ss r) (process_next dbg ss r) (fun _ _ => True).
Proof.
  intros n [|s ss] r Hr; cbn; [now apply agree_ret|cbv beta]. eapply agree_bind with (Q := fun _ _ => True).
  - unfold narrow_process_split, process_split. destruct s as [|c s]; [now apply agree_ret|cbv beta].
    apply agree_index_text; auto. intros. now apply agree_ret.
  - intros. now apply agree_ret.
Qed.

Lemma agree_vtn_index : forall n a b c, small a -> small b -> small c ->
  agree n (narrow_parse_vtn_index bits dbg a b c) (parse_vtn_index dbg a b c) (fun _ n' => n' < n).
Proof.
  intros n a b c Ha Hb Hc. unfold narrow_parse_vtn_index, parse_vtn_index.
  eapply agree_bind; [apply agree_next_string|cbv beta]. intros st n1 Hn1 H1.
  eapply agree_bind; [now apply agree_process_next|cbv beta]. intros [s1 l1] n2 Hn2 _.
  eapply agree_bind; [now apply agree_process_next|cbv beta]. intros [s2 l2] n3 Hn3 _.
  eapply agree_bind; [now apply agree_process_next|cbv beta]. intros [s3 l3] n4 Hn4 _.
  cbv zeta. match goal with |- agreeL _ _ (if ?x then _ else _) _ _ => destruct x end; [apply agree_error|cbv beta].
  destruct s1, s2, s3; try apply agree_error; apply agree_ret; lia.
Qed.

Lemma quiet_sub : forall a b, quiet (narrow_sub bits dbg a b).
Proof. intros a b. unfold narrow_sub. destruct (in_int bits (a - b)); [apply quiet_ret|]. destruct dbg; [apply quiet_panics|apply quiet_ret]. Qed.

Lemma quiet_calculate_index : forall r z, quiet (narrow_calculate_index bits dbg r z).
Proof.
  intros [a b] z. unfold narrow_calculate_index. apply quiet_bind; [destruct (z <=? 0)%Z; apply quiet_sub|]. intros v.
  match goal with |- quiet (if ?x then _ else _) => destruct x end; [|now apply quiet_error].
  apply quiet_bind; [unfold debug_assert; match goal with |- quiet (if ?x then _ else _) => destruct x end; [apply quiet_panics|apply quiet_ret]|].
  intros _. apply quiet_bind; [apply quiet_sub|]. intros. apply quiet_ret.
Qed.

Lemma quiet_process_next : forall ss r, quiet (narrow_process_next bits dbg ss r).
Proof.
  intros [|s ss] r; cbn; [apply quiet_ret|]. apply quiet_bind; [|intros; apply quiet_ret].
  unfold narrow_process_split. destruct s; [apply quiet_ret|]. destruct (narrow_isize bits _); [|now apply quiet_error].
  apply quiet_bind; [apply quiet_calculate_index|]. intros. apply quiet_ret.
Qed.

Lemma quiet_vtn_index : forall a b c, quiet (narrow_parse_vtn_index bits dbg a b c).
Proof.
  intros a b c. unfold narrow_parse_vtn_index. apply quiet_bind; [apply quiet_next_string|]. intros st.
  apply quiet_bind; [apply quiet_process_next|]. intros [s1 l1]. apply quiet_bind; [apply quiet_process_next|]. intros [s2 l2].
  apply quiet_bind; [apply quiet_process_next|]. intros [s3 l3]. cbv zeta.
  match goal with |- quiet (if ?x then _ else _) => destruct x end; [now apply quiet_error|].
  destruct s1, s2, s3; try (now apply quiet_error); apply quiet_ret.
Qed.

Lemma agree_vtn_indices : forall n l a b c, n <= total -> small a -> small b -> small c ->
  agree n (narrow_parse_vtn_indices bits dbg fuel l a b c) (parse_vtn_indices dbg fuel l a b c)
    (fun r n' => length (snd r) + n' <= length l + n).
Proof.
  intros n l a b c Hn Ha Hb Hc. unfold narrow_parse_vtn_indices, parse_vtn_indices.
  apply agree_loop with (I := fun r n' => fst r + n' <= n /\ length (snd r) + n' <= length l + n).
  - intros [k vs] n1 Hn1 [H1 H2]; cbn [fst snd] in H1, H2.
    eapply agree_catch; [now apply agree_vtn_index|apply quiet_vtn_index|cbv beta|cbv beta].
    + intros v n2 Hn2 H. apply agree_add_bind; [lia|cbv beta]. apply agree_ret. cbn [fst snd]. rewrite app_length. cbn. lia.
    + intros e e' n2 Hn2 H. apply agree_ret. cbn. lia.
  - cbn. lia.
Qed.

(** The first index of a point. *)
Lemma agree_parse_index : forall B n r (f' f : nat -> M B) Q, small r ->
  (forall i n', n = Datatypes.S n' -> agree n' (f' i) (f i) Q) ->
  agree n (bind (narrow_parse_isize bits) (fun z => bind (narrow_calculate_index bits dbg r z) f'))
          (bind parse_isize (fun z => bind (calculate_index dbg r z) f)) Q.
Proof.
  intros B n r f' f Q Hr Hf.
  assert (A : agree n (bind next_string (fun st => match narrow_isize bits st with Some z => bind (narrow_calculate_index bits dbg r z) f' | None => error_expected_integer st end))
                      (bind next_string (fun st => match RustStd.parse_isize st with Some z => bind (calculate_index dbg r z) f | None => error_expected_integer st end)) Q).
  { eapply agree_bind; [apply agree_next_string|cbv beta]. intros st n' Hn H. apply agree_index_text; auto. }
  intros p Hp. specialize (A p Hp). unfold bind at 1 in A. unfold bind at 1. unfold narrow_parse_isize. unfold bind at 1.
  match type of A with related _ _ _ _ ?w => match goal with |- related _ _ _ _ ?w' => assert (Ew : w' = w) end end.
  { unfold parse_isize, bind. destruct (next_string p) as [[st|e|x|] q]; auto. destruct (RustStd.parse_isize st); reflexivity. }
  rewrite Ew. destruct (next_string p) as [[st|e|x|] q]; auto. destruct (narrow_isize bits st); exact A.
Qed.

Lemma agree_point : forall n es a, n <= total -> small a ->
  agree n (narrow_parse_point bits dbg fuel es a) (parse_point dbg fuel es a) (fun r n' => fst r + n' < n).
Proof.
  intros n es a Hn Ha. unfold narrow_parse_point, parse_point.
  eapply agree_bind; [apply agree_expect_tag|cbv beta]. intros ? n1 Hn1 H1.
  apply agree_parse_index; auto. intros i n3 Hn3.
  apply agree_loop with (I := fun r n' => fst r + n' < n); [|cbn; lia].
  intros [k vs] n4 Hn4 H4; cbn [fst] in H4.
  eapply agree_bind; [apply agree_next|cbv beta]. intros [t|] n5 Hn5 H5; [|apply agree_ret; cbn; lia].
  destruct (negb (bytes_eqb t nl)); [|apply agree_ret; cbn; lia].
  apply agree_index_text; auto. intros j.
  apply agree_add_bind; [lia|cbv beta]. apply agree_ret. cbn. lia.
Qed.

Lemma in_range : forall x lo hi, In x (range lo hi) -> x < hi.
Proof. intros x lo hi H. apply in_seq in H. lia. Qed.

Lemma agree_line : forall n es a b c, n <= total -> small a -> small b -> small c ->
  agree n (narrow_parse_line bits dbg fuel es a b c) (parse_line dbg fuel es a b c) (fun r n' => fst r + n' < n).
Proof.
  intros n es a b c Hn Ha Hb Hc. unfold narrow_parse_line, parse_line.
  eapply agree_bind; [apply agree_expect_tag|cbv beta]. intros ? n1 Hn1 H1.
  eapply agree_bind; [now apply agree_vtn_index|cbv beta]. intros v1 n2 Hn2 H2.
  eapply agree_bind; [now apply agree_vtn_index|cbv beta]. intros v2 n3 Hn3 H3.
  eapply agree_bind; [apply agree_vtn_indices; auto; lia|cbv beta]. intros [k vs] n4 Hn4 H4; cbn [snd length] in H4.
  eapply agree_bind; [apply agree_verify|cbv beta]. intros ok n5 Hn5 _. destruct (negb ok); [apply agree_error|cbv beta].
  eapply agree_bind; [apply agree_len_minus|cbv beta]. intros m n6 Hn6 H6.
  eapply agree_bind.
  - apply agree_for_each with (I := fun _ xs => Forall (fun i => i < m) xs).
    + intros x i r n7 Hn7 Hi. inversion Hi; subst.
      eapply agree_bind; [apply agree_index|cbv beta]. intros u n8 Hn8 _.
      apply agree_add_bind; [lia|cbv beta]. eapply agree_bind; [apply agree_index|cbv beta]. intros. now apply agree_ret.
    + apply Forall_forall. intros x. apply in_range.
  - intros. apply agree_ret. cbn. lia.
Qed.

Lemma agree_face : forall n es a b c, n <= total -> small a -> small b -> small c ->
  agree n (narrow_parse_face bits dbg fuel es a b c) (parse_face dbg fuel es a b c) (fun r n' => fst r + n' < n).
Proof.
  intros n es a b c Hn Ha Hb Hc. unfold narrow_parse_face, parse_face.
  eapply agree_bind; [apply agree_expect_tag|cbv beta]. intros ? n1 Hn1 H1.
  eapply agree_bind; [apply agree_vtn_indices; auto; lia|cbv beta]. intros [k vs] n4 Hn4 H4; cbn [snd length] in H4.
  destruct (length vs <? 3); [apply agree_error|cbv beta].
  eapply agree_bind; [apply agree_verify|cbv beta]. intros ok n5 Hn5 _. destruct (negb ok); [apply agree_error|cbv beta].
  unfold narrow_triangulate, triangulate.
  eapply agree_bind; [apply agree_index|cbv beta]. intros v0 n6 Hn6 _.
  eapply agree_bind; [apply agree_len_minus|cbv beta]. intros m n7 Hn7 H7.
  eapply agree_bind.
  - apply agree_for_each with (I := fun _ xs => Forall (fun i => i < m) xs).
    + intros x i r n8 Hn8 Hi. inversion Hi; subst.
      apply agree_add_bind; [lia|cbv beta]. eapply agree_bind; [apply agree_index|cbv beta]. intros u n9 Hn9 _.
      apply agree_add_bind; [lia|cbv beta]. eapply agree_bind; [apply agree_index|cbv beta]. intros. now apply agree_ret.
    + apply Forall_forall. intros x. apply in_range.
  - intros. apply agree_ret. cbn. lia.
Qed.

Lemma agree_elements : forall n es a b c, n <= total -> small a -> small b -> small c ->
  agree n (narrow_parse_elements bits dbg fuel es a b c) (parse_elements dbg fuel es a b c) (fun r n' => fst r + n' < n).
Proof.
  intros n es a b c Hn Ha Hb Hc. unfold narrow_parse_elements, parse_elements.
  eapply agree_bind; [apply agree_peek|cbv beta]. intros t n' Hn' ->.
  destruct (is_tok t "p"); [now apply agree_point|cbv beta]. destruct (is_tok t "l"); [now apply agree_line|cbv beta].
  destruct (is_tok t "f"); [now apply agree_face|cbv beta]. apply agree_error.
Qed.

Lemma agree_names : forall n l, n <= total ->
  agree n (narrow_names_until_newline bits dbg fuel l) (names_until_newline fuel l) (fun r n' => fst r + n' <= n).
Proof.
  intros n l Hn. unfold narrow_names_until_newline, names_until_newline.
  apply agree_loop with (I := fun r n' => fst r + n' <= n); [|cbn; lia].
  intros [k vs] n1 Hn1 H1; cbn [fst] in H1.
  eapply agree_bind; [apply agree_next|cbv beta]. intros [t|] n2 Hn2 H2; [|apply agree_ret; cbn; lia].
  destruct (negb (bytes_eqb t nl)); [|apply agree_ret; cbn; lia].
  apply agree_add_bind; [lia|cbv beta]. apply agree_ret. cbn. lia.
Qed.

(** The counters of one object, with [n] tokens left. *)
Record bounded (st : object_state) (n : nat) : Prop := mkBounded {
  b_group : max_group_index (os_groups st) + n <= total;
  b_group_el : max_element_group_index (os_groups st) + n <= total;
  b_smooth : smoothing_group_index (os_smoothing st) + n <= total;
  b_smooth_el : max_element_smoothing_group_index (os_smoothing st) + n <= total;
  b_mat : material_name_index (os_material st) + n <= total;
  b_mat_el : max_element_material_name_index (os_material st) + n <= total;
  b_v : max_vertex_index (os_ranges st) + n <= total;
  b_vt : max_texture_index (os_ranges st) + n <= total;
  b_vn : max_normal_index (os_ranges st) + n <= total;
  b_v_min : min_vertex_index (os_ranges st) + length (vertices (os_data st)) = max_vertex_index (os_ranges st);
  b_vt_min : min_texture_index (os_ranges st) + length (texture_vertices (os_data st)) = max_texture_index (os_ranges st);
  b_vn_min : min_normal_index (os_ranges st) + length (normal_vertices (os_data st)) = max_normal_index (os_ranges st)
}.

Ltac bound := match goal with
  | H : bounded _ _ |- bounded _ _ =>
      destruct H; constructor; cbn -[Nat.add] in *; rewrite ?app_length; cbn [length] in *; lia
  end.

Lemma agree_groups : forall n l, n <= total ->
  agree n (narrow_parse_groups bits dbg fuel l) (parse_groups fuel l) (fun r n' => fst r + n' < n).
Proof.
  intros n l Hn. eapply agree_bind; [apply agree_expect_tag|cbv beta]. intros ? n1 Hn1 H1.
  eapply agree_weaken; [apply agree_names; lia|cbv beta]. intros [k l'] n2 Hn2 H2; cbn [fst] in *. lia.
Qed.

Lemma agree_g : forall d g s m r n, bounded (mkObjectState d g s m r) n ->
  agree n (narrow_parse_object_g bits dbg fuel g) (parse_object_g fuel g) (fun g' n' => bounded (mkObjectState d g' s m r) n').
Proof.
  intros d g s m r n Hb. unfold narrow_parse_object_g, parse_object_g.
  destruct (groups g); (eapply agree_bind; [apply agree_groups; destruct Hb; cbn in *; lia|cbv beta];
    intros [k l'] n1 Hn1 H1; cbn [fst] in H1; apply agree_add_bind; [destruct Hb; cbn in *; lia|];
    apply agree_ret; bound).
Qed.

Definition big_s (s : smoothing_state) : Prop := big (smoothing_groups s).

Lemma agree_s : forall d g s m r n, bounded (mkObjectState d g s m r) n ->
  agreeL big_s n (narrow_parse_object_s bits dbg s) (parse_object_s s) (fun s' n' => bounded (mkObjectState d g s' m r) n').
Proof.
  intros d g s m r n Hb. unfold narrow_parse_object_s, parse_object_s.
  destruct (smoothing_groups s).
  - eapply agreeL_bind; [apply agree_smoothing_group|intros [k l'] H; now apply ensures_ret|cbv beta]. intros [k l'] n1 Hn1 H1. apply agree_ret; bound.
  - eapply agreeL_bind; [apply agree_smoothing_group|intros [k l'] H; now apply ensures_ret|cbv beta]. intros [k l'] n1 Hn1 H1.
    apply agree_add_bind; [destruct Hb; cbn in *; lia|]. apply agree_ret; bound.
Qed.

Lemma keeps_s : forall s, big_s s -> ensures (parse_object_s s) big_s.
Proof.
  intros s H. unfold parse_object_s, big_s in *. destruct (smoothing_groups s) eqn:E;
    (eapply ensures_bind; [apply keeps_smoothing_group; exact H|]); intros [k l'] H'; now apply ensures_ret.
Qed.

Lemma agree_usemtl : forall d g s m r n, bounded (mkObjectState d g s m r) n ->
  agree n (narrow_parse_object_usemtl bits dbg m) (parse_object_usemtl m) (fun m' n' => bounded (mkObjectState d g s m' r) n').
Proof.
  intros d g s m r n Hb. unfold narrow_parse_object_usemtl, parse_object_usemtl.
  eapply agree_bind with (Q := fun x n' => snd x + n' <= total).
  - destruct (material_names m).
    + eapply agree_bind; [apply agree_material_name|cbv beta]. intros [k l'] n1 Hn1 H1. apply agree_ret.
      destruct Hb; cbn in *; lia.
    + eapply agree_bind; [apply agree_material_name|cbv beta]. intros [k l'] n1 Hn1 H1.
      apply agree_add_bind; [destruct Hb; cbn in *; lia|]. apply agree_ret. destruct Hb; cbn in *; lia.
  - intros [ns i] n1 Hn1 H1. apply agree_ret. bound.
Qed.

Lemma agree_element : forall st n, bounded st n ->
  agree n (narrow_parse_object_element bits dbg fuel st) (parse_object_element dbg fuel st) bounded.
Proof.
  intros [d g s m r] n Hb. unfold narrow_parse_object_element, parse_object_element. cbn [os_data os_groups os_smoothing os_material os_ranges].
  assert (Hr : small (vertex_range r) /\ small (texture_range r) /\ small (normal_range r)).
  { destruct Hb; unfold small; cbn in *. repeat split; lia. }
  destruct Hr as (H1 & H2 & H3).
  eapply agree_bind; [apply agree_elements; auto; destruct Hb; cbn in *; lia|cbv beta].
  intros [k l] n1 Hn1 H; cbn [fst] in H.
  apply agree_add_bind; [destruct Hb, (groups g); cbn in *; lia|].
  apply agree_add_bind; [destruct Hb, (smoothing_groups s); cbn in *; lia|].
  apply agree_add_bind; [destruct Hb, (material_names m); cbn in *; lia|].
  apply agree_ret. destruct Hb; constructor; cbn in *; try lia;
    destruct (groups g), (smoothing_groups s), (material_names m); cbn in *; lia.
Qed.

Definition big_st (st : object_state) : Prop := big_s (os_smoothing st).

Lemma keeps_element : forall st, big_st st -> ensures (parse_object_element dbg fuel st) big_st.
Proof.
  intros st H. unfold parse_object_element. apply ensures_then. intros [k l]. apply ensures_ret. unfold big_st, big_s in *. cbn.
  destruct (smoothing_groups (os_smoothing st)) eqn:E; [inversion H|]. rewrite E. exact H.
Qed.

Lemma keeps_body : forall st, big_st st -> ensures (parse_object_body dbg fuel st) (of_step big_st big_st).
Proof.
  intros st H. unfold parse_object_body. apply ensures_then. intros t.
  destruct (is_tok t "g"); [apply ensures_then; intros; now apply ensures_ret|].
  destruct (is_tok t "s"); [eapply ensures_bind; [now apply keeps_s|]; intros; now apply ensures_ret|].
  destruct (is_tok t "usemtl"); [apply ensures_then; intros; now apply ensures_ret|].
  destruct (is_tok t "v"); [eapply ensures_bind with (P := big_st); [|intros; now apply ensures_ret]; apply ensures_then; intros; now apply ensures_ret|].
  destruct (is_tok t "vt"); [eapply ensures_bind with (P := big_st); [|intros; now apply ensures_ret]; apply ensures_then; intros; now apply ensures_ret|].
  destruct (is_tok t "vn"); [eapply ensures_bind with (P := big_st); [|intros; now apply ensures_ret]; apply ensures_then; intros; now apply ensures_ret|].
  destruct (is_tok t "p" || is_tok t "l" || is_tok t "f"); [eapply ensures_bind; [now apply keeps_element|intros; now apply ensures_ret]|].
  destruct (is_nl t); [apply ensures_then; intros; now apply ensures_ret|].
  destruct t as [t|]; [destruct (bytes_eqb t (lit "o")); [|apply ensures_error]|]; now apply ensures_ret.
Qed.

Lemma agree_body : forall st n, bounded st n ->
  agreeL (of_step big_st big_st) n (narrow_parse_object_body bits dbg fuel st) (parse_object_body dbg fuel st)
    (fun r n' => match r with Continue st' => bounded st' n' | Break st' => bounded st' n' end).
Proof.
  intros st n Hb. unfold narrow_parse_object_body, parse_object_body.
  eapply agree_bind; [apply agree_peek|cbv beta]. intros t n' Hn' ->.
  destruct (is_tok t "g").
  { destruct st as [d g s m r]. eapply agree_bind; [apply (agree_g d g s m r); exact Hb|cbv beta]. intros g' n1 Hn1 H. now apply agree_ret. }
  destruct (is_tok t "s").
  { destruct st as [d g s m r]. eapply agreeL_bind; [apply (agree_s d g s m r); exact Hb|intros; now apply ensures_ret|cbv beta]. intros g' n1 Hn1 H. now apply agree_ret. }
  destruct (is_tok t "usemtl").
  { destruct st as [d g s m r]. eapply agree_bind; [apply (agree_usemtl d g s m r); exact Hb|cbv beta]. intros g' n1 Hn1 H. now apply agree_ret. }
  destruct (is_tok t "v").
  { eapply agree_bind with (Q := bounded); [|intros; apply agree_ret; assumption].
    eapply agree_bind; [apply agree_vertex|cbv beta]. intros v n1 Hn1 H. destruct st as [d g s m r].
    apply agree_add_bind; [destruct Hb; cbn in *; lia|]. apply agree_ret. bound. }
  destruct (is_tok t "vt").
  { eapply agree_bind with (Q := bounded); [|intros; apply agree_ret; assumption].
    eapply agree_bind; [apply agree_texture_vertex|cbv beta]. intros v n1 Hn1 H. destruct st as [d g s m r].
    apply agree_add_bind; [destruct Hb; cbn in *; lia|]. apply agree_ret. bound. }
  destruct (is_tok t "vn").
  { eapply agree_bind with (Q := bounded); [|intros; apply agree_ret; assumption].
    eapply agree_bind; [apply agree_normal_vertex|cbv beta]. intros v n1 Hn1 H. destruct st as [d g s m r].
    apply agree_add_bind; [destruct Hb; cbn in *; lia|]. apply agree_ret. bound. }
  destruct (is_tok t "p" || is_tok t "l" || is_tok t "f").
  { eapply agree_bind; [now apply agree_element|]. intros; apply agree_ret; assumption. }
  destruct (is_nl t).
  { eapply agree_bind; [apply agree_skip_one|cbv beta]. intros ? n1 Hn1 _. apply agree_ret. destruct st; bound. }
  destruct t as [t|]; [destruct (bytes_eqb t (lit "o")); [|apply agree_error]|];
    apply agree_ret; destruct st; bound.
Qed.

(** The counters between objects. *)
Definition counts_fit (r : index_ranges) (n : nat) : Prop :=
  min_vertex_index r = max_vertex_index r /\ min_texture_index r = max_texture_index r /\
  min_normal_index r = max_normal_index r /\
  max_vertex_index r + n <= total /\ max_texture_index r + n <= total /\ max_normal_index r + n <= total.

Definition big_object (ob : object) : Prop := big (smoothing_group_set ob).

Lemma agree_object : forall r n, counts_fit r n ->
  agreeL (fun x => big_object (fst x)) n (narrow_parse_object bits dbg fuel r) (parse_object dbg fuel r) (fun x n' => counts_fit (snd x) n').
Proof.
  intros r n (E1 & E2 & E3 & H1 & H2 & H3). unfold narrow_parse_object, parse_object.
  eapply agree_bind; [apply agree_object_name|cbv beta]. intros nm n1 Hn1 _.
  eapply agreeL_bind with (L1 := big_st).
  { apply agreeL_loop with (I := bounded) (Q := bounded) (LA := big_st).
    - intros. now apply agree_body.
    - apply keeps_body.
    - constructor; cbn; lia. }
  { intros st H. apply ensures_then. intros se. apply ensures_then. intros ge. now apply ensures_ret. }
  intros st n2 Hn2 Hb. eapply agree_bind; [apply agree_shape_entries|cbv beta]. intros se n3 Hn3 _.
  eapply agree_bind; [apply agree_geometries|cbv beta]. intros ge n4 Hn4 _.
  destruct Hb. apply agree_add_bind; [lia|]. apply agree_add_bind; [lia|]. apply agree_add_bind; [lia|].
  apply agree_ret. unfold counts_fit. cbn. lia.
Qed.

Lemma agree_objset : forall n, n <= total ->
  agreeL (too_large_group bits) n (narrow_parse_objset bits dbg fuel) (parse_objset dbg fuel) (fun _ _ => True).
Proof.
  intros n Hn. unfold narrow_parse_objset, parse_objset.
  eapply agree_bind with (Q := fun _ _ => True).
  { eapply agree_bind; [apply agree_skip|cbv beta]. intros ? n1 Hn1 _.
    apply agree_loop with (I := fun _ _ => True); auto. intros ls n2 Hn2 _.
    eapply agree_bind; [apply agree_peek|cbv beta]. intros t n3 Hn3 ->.
    destruct (is_tok t "mtllib"); [|now apply agree_ret].
    eapply agree_bind with (Q := fun _ _ => True).
    - eapply agree_bind; [apply agree_expect_tag|cbv beta]. intros ? n4 Hn4 _.
      eapply agree_weaken; [apply agree_names; lia|auto].
    - intros [k l] n4 Hn4 _. eapply agree_bind; [apply agree_skip|cbv beta]. intros. now apply agree_ret. }
  intros ls n1 Hn1 _.
  eapply agreeL_bind with (Q := fun _ _ => True) (L1 := List.Exists big_object); [| |intros; apply agree_ret; assumption].
  2:{ intros os H. apply ensures_ret. apply Exists_exists in H. destruct H as (ob & H1 & H2). apply Exists_exists in H2.
      destruct H2 as (k & H3 & H4). exists ob, k. auto. }
  eapply agree_bind; [apply agree_skip|cbv beta]. intros ? n2 Hn2 _.
  apply agreeL_loop with (I := fun x n' => counts_fit (snd x) n') (LA := fun x => List.Exists big_object (fst x)); [| |unfold counts_fit; cbn; lia].
  2:{ intros [os r] H; cbn [fst] in H. apply ensures_then. intros [t|]; [|now apply ensures_ret].
      apply ensures_then. intros [ob r']. apply ensures_then. intros _. apply ensures_ret. cbn. apply Exists_app. now left. }
  intros [os r] n3 Hn3 Hr; cbn [snd] in Hr.
  eapply agree_bind; [apply agree_peek|cbv beta]. intros t n4 Hn4 ->. destruct t as [t|]; [|now apply agree_ret].
  eapply agreeL_bind; [now apply agree_object| |cbv beta].
  { intros [ob r'] H; cbn [fst] in H. apply ensures_then. intros _. apply ensures_ret. cbn. apply Exists_app. right. now constructor. }
  intros [ob r'] n5 Hn5 H5; cbn [snd] in H5.
  eapply agree_bind; [apply agree_skip|cbv beta]. intros ? n6 Hn6 _. apply agree_ret. cbn [snd].
  unfold counts_fit in *. lia.
Qed.

(** The smaller platform reads no smoothing group that is too large for it. *)
Definition fit (l : list N) : Prop := List.Forall (fun k => (Z.of_N k <= largest_usize bits)%Z) l.
Definition fit_st (st : object_state) : Prop := fit (smoothing_groups (os_smoothing st)).

Lemma fit_zero : (0 <= largest_usize bits)%Z.
Proof. unfold largest_usize. assert (0 < 2 ^ bits)%Z by (apply Z.pow_pos_nonneg; lia). lia. Qed.

Lemma fit_one : forall l k, fit l -> (Z.of_N k <= largest_usize bits)%Z -> fit (l ++ [k]).
Proof. intros l k H Hk. apply Forall_app. split; auto. Qed.

Lemma fit_smoothing_group : forall l, fit l -> ensures (narrow_parse_smoothing_group bits l) (fun r => fit (snd r)).
Proof.
  intros l H. unfold narrow_parse_smoothing_group. apply ensures_then. intros _. apply ensures_then. intros [t|]; [|apply ensures_error].
  destruct (bytes_eqb t (lit "off")); [apply ensures_ret; apply fit_one; auto; apply fit_zero|].
  unfold narrow_usize. destruct (parse_usize t) as [k|]; [|apply ensures_error].
  destruct (Z.of_N k <=? word_max bits)%Z eqn:E; [|apply ensures_error]. apply Z.leb_le in E.
  apply ensures_ret. apply fit_one; auto.
Qed.

Lemma fit_s : forall s, fit (smoothing_groups s) -> ensures (narrow_parse_object_s bits dbg s) (fun s' => fit (smoothing_groups s')).
Proof.
  intros s H. unfold narrow_parse_object_s. destruct (smoothing_groups s) eqn:E;
    (eapply ensures_bind; [apply fit_smoothing_group; exact H|]); intros [k l'] H'; [now apply ensures_ret|].
  apply ensures_then. intros. now apply ensures_ret.
Qed.

Lemma fit_element : forall st, fit_st st -> ensures (narrow_parse_object_element bits dbg fuel st) fit_st.
Proof.
  intros st H. unfold narrow_parse_object_element. apply ensures_then. intros [k l].
  do 3 (apply ensures_then; intros). apply ensures_ret. unfold fit_st in *. cbn.
  destruct (smoothing_groups (os_smoothing st)) eqn:E; [|rewrite E; exact H]. cbn. repeat constructor. apply fit_zero.
Qed.

Lemma fit_body : forall st, fit_st st -> ensures (narrow_parse_object_body bits dbg fuel st) (of_step fit_st fit_st).
Proof.
  intros st H. unfold narrow_parse_object_body. apply ensures_then. intros t.
  destruct (is_tok t "g"); [apply ensures_then; intros; now apply ensures_ret|].
  destruct (is_tok t "s"); [eapply ensures_bind; [now apply fit_s|]; intros; now apply ensures_ret|].
  destruct (is_tok t "usemtl"); [apply ensures_then; intros; now apply ensures_ret|].
  destruct (is_tok t "v"); [eapply ensures_bind with (P := fit_st); [|intros; now apply ensures_ret]; do 2 (apply ensures_then; intros); now apply ensures_ret|].
  destruct (is_tok t "vt"); [eapply ensures_bind with (P := fit_st); [|intros; now apply ensures_ret]; do 2 (apply ensures_then; intros); now apply ensures_ret|].
  destruct (is_tok t "vn"); [eapply ensures_bind with (P := fit_st); [|intros; now apply ensures_ret]; do 2 (apply ensures_then; intros); now apply ensures_ret|].
  destruct (is_tok t "p" || is_tok t "l" || is_tok t "f"); [eapply ensures_bind; [now apply fit_element|intros; now apply ensures_ret]|].
  destruct (is_nl t); [apply ensures_then; intros; now apply ensures_ret|].
  destruct t as [t|]; [destruct (bytes_eqb t (lit "o")); [|apply ensures_error]|]; now apply ensures_ret.
Qed.

Lemma fit_objset : ensures (narrow_parse_objset bits dbg fuel) (fun set => ~ too_large_group bits set).
Proof.
  unfold narrow_parse_objset. apply ensures_then. intros ls.
  eapply ensures_bind with (P := List.Forall (fun ob => fit (smoothing_group_set ob))).
  2:{ intros os H. apply ensures_ret. intros (ob & k & H1 & H2 & H3). cbn in H1.
      rewrite Forall_forall in H. specialize (H ob H1). unfold fit in H. rewrite Forall_forall in H. specialize (H k H2). lia. }
  apply ensures_then. intros _.
  apply ensures_loop with (LA := fun x => List.Forall (fun ob => fit (smoothing_group_set ob)) (fst x)); [|constructor].
  intros [os r] H; cbn [fst] in H. apply ensures_then. intros [t|]; [|now apply ensures_ret].
  eapply ensures_bind with (P := fun x => fit (smoothing_group_set (fst x))).
  - unfold narrow_parse_object. apply ensures_then. intros nm.
    eapply ensures_bind; [apply ensures_loop with (LA := fit_st); [apply fit_body|constructor]|].
    intros st Hst. do 5 (apply ensures_then; intros). apply ensures_ret. exact Hst.
  - intros [ob r'] Ho; cbn [fst] in Ho. apply ensures_then. intros _. apply ensures_ret. cbn. apply Forall_app. split; auto.
Qed.

End Agree.

Lemma narrow_fits : forall bits input, (8 <= bits <= 64)%Z -> (Z.of_nat (length input) <= largest_isize bits)%Z -> fits input.
Proof.
  intros bits input Hb H. unfold fits, isize_max, largest_isize in *.
  assert (2 ^ (bits - 1) <= 2 ^ 63)%Z by (apply Z.pow_le_mono_r; lia). lia.
Qed.

Lemma parse_ends : forall dbg input, parse dbg input <> Diverge.
Proof.
  intros dbg input. destruct (obj_terminates dbg input (lex input) (Datatypes.S (length (lex input)))) as [_ H]; auto.
  apply lex_tokenizes.
Qed.

Lemma narrow_ending : forall bits dbg input, (8 <= bits <= 64)%Z -> (Z.of_nat (length input) <= largest_isize bits)%Z ->
  same_ending bits dbg (narrow_parse bits dbg input) (parse dbg input).
Proof.
  intros bits dbg input Hb H. pose proof (narrow_fits bits input Hb H) as Hf.
  pose proof (agree_objset (S := lexer_source) (sound_state input) (fun p n => sound_peek _ input p n)
              (fun p n => sound_next _ input p n) bits Hb dbg (fuel_for input) (length input) H (length (lex input))
              (lex_short input) (parser_new input) (sound_new input Hf)) as R.
  pose proof (parse_ends dbg input) as D. unfold narrow_parse, parse in *.
  destruct R as [| | | |e q r He Hr| |]; cbn [fst] in *; try (now constructor); [contradiction|].
  apply smoothing; auto. intros set E. destruct r as [o q']. cbn in E. subst o. now apply (Hr set q').
Qed.

Lemma narrow_ok : forall bits input, (8 <= bits <= 64)%Z -> (Z.of_nat (length input) <= largest_isize bits)%Z ->
  forall set, narrow_parse bits false input = Ok set <-> parse false input = Ok set /\ ~ too_large_group bits set.
Proof.
  intros bits input Hb H set. pose proof (narrow_ending bits false input Hb H) as R.
  assert (F : forall set, narrow_parse bits false input = Ok set -> ~ too_large_group bits set).
  { intros x E. unfold narrow_parse in E. destruct (narrow_parse_objset bits false (fuel_for input) (parser_new input)) as [o q] eqn:E'.
    cbn in E. subst o. exact (fit_objset bits Hb false (fuel_for input) 0 _ _ _ E'). }
  inversion R as [a E1 E2|e e' He E1 E2|x E1 E2|e r He Hr E1 E2|r Hd E1 E2|r Hd E1 E2]; try discriminate.
  - rewrite <- E1 in F. split; [intro K; split; [exact K|now apply F]|intros [K _]; exact K].
  - split; [discriminate|intros [K _]; discriminate].
  - split; [discriminate|intros [K _]; discriminate].
  - split; [discriminate|intros [K N]]. destruct N. now apply Hr.
Qed.

Lemma narrow_release : forall bits input, (8 <= bits <= 64)%Z -> (Z.of_nat (length input) <= largest_isize bits)%Z ->
  (exists e, narrow_parse bits false input = Err e /\ smoothing_too_large bits e /\
     forall set, parse false input = Ok set -> too_large_group bits set) \/
  (exists set, narrow_parse bits false input = Ok set /\ parse false input = Ok set) \/
  (exists e e', narrow_parse bits false input = Err e /\ parse false input = Err e' /\ same_error e e') \/
  (exists x, narrow_parse bits false input = Panic x /\ parse false input = Panic x).
Proof.
  intros bits input Hb H. pose proof (narrow_ending bits false input Hb H) as R.
  inversion R as [a E1 E2|e e' He E1 E2|x E1 E2|e r He Hr E1 E2|r Hd E1 E2|r Hd E1 E2]; try discriminate; eauto 10.
Qed.

Lemma parse_usize_range : forall t n, RustStd.parse_usize t = Some n -> (n <= usize_max)%N.
Proof.
  intros t n H. unfold RustStd.parse_usize in H.
  repeat match type of H with
  | context [match ?x with _ => _ end] => destruct x eqn:?; try discriminate
  end; apply N.leb_le; congruence.
Qed.

Lemma no_smoothing_64 : forall e, ~ smoothing_too_large 64 e.
Proof.
  intros e (_ & t & n & H & L & _). apply parse_usize_range in H. unfold largest_usize in L. unfold usize_max in H. lia.
Qed.
