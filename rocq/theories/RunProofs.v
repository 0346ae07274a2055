(** Characterizing a computation over the token list by the relation between
    the tokens it is given, its result, and the tokens it leaves. *)
From Verif Require Import ObjModel MtlModel SourceProofs ConsumeProofs.
Local Open Scope list_scope.

Definition reads (A : Type) : Type := list bytes -> A -> list bytes -> Prop.

(** [m] started on [ts] returns [a] and leaves [rest]. *)
Definition ok_to {K A} (m : M list_source K A) (l : nat) (ts : list bytes) (a : A) (rest : list bytes) : Prop :=
  exists l', m (list_parser l ts) = (Ok a, list_parser l' rest).

(** An error (without its line) or a panic. *)
Inductive failure (K : Type) : Type :=
| Fails (k : K) (msg : bytes)
| Panics (p : panic).
Arguments Fails {K}.
Arguments Panics {K}.

Definition bad_outcome {K A} (l : nat) (b : failure K) : outcome (parse_error K) A :=
  match b with
  | Fails k msg => Err (mkParseError l k msg)
  | Panics p => Panic p
  end.

Definition bad_to {K A} (m : M list_source K A) (l : nat) (ts : list bytes) (b : failure K) (rest : list bytes) : Prop :=
  exists l', m (list_parser l ts) = (bad_outcome l' b, list_parser l' rest).

Section Run.
Context (fuel : nat).

(** With enough fuel, the successful runs of [m] are the triples of [R]. *)
Definition acc {K A} (m : M list_source K A) (R : reads A) : Prop :=
  forall ts, length ts < fuel ->
    (forall l a rest, ok_to m l ts a rest <-> R ts a rest) /\
    (forall a rest, R ts a rest -> length rest <= length ts).

(** With enough fuel, the failing runs of [m] are the triples of [F]. *)
Definition bad {K A} (m : M list_source K A) (F : reads (failure K)) : Prop :=
  forall ts, length ts < fuel -> forall l b rest, bad_to m l ts b rest <-> F ts b rest.

Lemma acc_iff : forall K A (m : M list_source K A) (R R' : reads A),
  (forall ts a rest, length ts < fuel -> R ts a rest <-> R' ts a rest) -> acc m R -> acc m R'.
Proof.
  intros K A m R R' H Hm ts Hl. destruct (Hm ts Hl) as [H1 H2]. split.
  - intros l a rest. rewrite H1. auto.
  - intros a rest Hr. apply H in Hr; auto. now apply H2 in Hr.
Qed.

Lemma bad_iff : forall K A (m : M list_source K A) (F F' : reads (failure K)),
  (forall ts b rest, length ts < fuel -> F ts b rest <-> F' ts b rest) -> bad m F -> bad m F'.
Proof. intros K A m F F' H Hm ts Hl l b rest. rewrite (Hm ts Hl). auto. Qed.

(** ** Relations *)

Definition r_ret {A} (a : A) : reads A := fun ts a' rest => a' = a /\ rest = ts.
Definition r_none {A} : reads A := fun _ _ _ => False.
Definition r_bind {A B} (R1 : reads A) (R2 : A -> reads B) : reads B :=
  fun ts b rest => exists a mid, R1 ts a mid /\ R2 a mid b rest.
Definition r_peek : reads (option bytes) := fun ts t rest => t = hd_error ts /\ rest = ts.
Definition r_next : reads (option bytes) := fun ts t rest => t = hd_error ts /\ rest = tl ts.
Definition r_bad_bind {K A} (F1 : reads (failure K)) (R1 : reads A) (F2 : A -> reads (failure K)) : reads (failure K) :=
  fun ts b rest => F1 ts b rest \/ exists a mid, R1 ts a mid /\ F2 a mid b rest.

Lemma acc_ret : forall K A (a : A), acc (K := K) (ret a) (r_ret a).
Proof.
  intros K A a ts Hl. split.
  - intros l a' rest. unfold ok_to, ret, r_ret. split.
    + intros [l' E]. inversion E; auto.
    + intros [-> ->]. eauto.
  - intros a' rest [_ ->]. auto.
Qed.

Lemma bad_ret : forall K A (a : A), bad (K := K) (ret a) r_none.
Proof.
  intros K A a ts Hl l b rest. unfold bad_to, ret, r_none. split; [|tauto].
  intros [l' E]. destruct b; discriminate.
Qed.

Lemma acc_bind : forall K A B (m : M list_source K A) (f : A -> M list_source K B) R1 R2,
  acc m R1 -> (forall a, acc (f a) (R2 a)) -> acc (bind m f) (r_bind R1 R2).
Proof.
  intros K A B m f R1 R2 Hm Hf ts Hl. destruct (Hm ts Hl) as [H1 H2]. split.
  - intros l b rest. unfold ok_to, bind, r_bind. split.
    + intros [l' E]. destruct (m (list_parser l ts)) as [[a|e|x|] [l1 mid]] eqn:Em; try discriminate.
      assert (Ha : R1 ts a mid) by (apply (H1 l); exists l1; exact Em).
      exists a, mid. split; auto. apply (Hf a mid) with (l := l1).
      * apply H2 in Ha. lia.
      * exists l'. exact E.
    + intros (a & mid & Ha & Hb). pose proof (H2 _ _ Ha) as Hlen.
      apply (H1 l) in Ha. destruct Ha as [l1 E1]. rewrite E1.
      apply (Hf a mid) with (l := l1) in Hb; [|lia]. exact Hb.
  - intros b rest (a & mid & Ha & Hb). apply H2 in Ha as Hlen.
    apply (Hf a mid) in Hb; lia.
Qed.

Lemma bad_bind : forall K A B (m : M list_source K A) (f : A -> M list_source K B) R1 F1 F2,
  acc m R1 -> bad m F1 -> (forall a, bad (f a) (F2 a)) -> bad (bind m f) (r_bad_bind F1 R1 F2).
Proof.
  intros K A B m f R1 F1 F2 Ha Hb Hf ts Hl l b rest. destruct (Ha ts Hl) as [H1 H2].
  unfold bad_to, bind, r_bad_bind. split.
  - intros [l' E]. destruct (m (list_parser l ts)) as [[a|e|x|] [l1 mid]] eqn:Em.
    + right. assert (HR : R1 ts a mid) by (apply (H1 l); exists l1; exact Em).
      exists a, mid. split; auto. apply H2 in HR as Hlen. apply (Hf a mid) with (l := l1); [lia|].
      exists l'. exact E.
    + left. apply (Hb ts Hl l). exists l'. rewrite Em. destruct b; inversion E; subst; reflexivity.
    + left. apply (Hb ts Hl l). exists l'. rewrite Em. destruct b; inversion E; subst; reflexivity.
    + destruct b; discriminate.
  - intros [HF|(a & mid & HR & HF)].
    + apply (Hb ts Hl l) in HF. destruct HF as [l' E]. exists l'. rewrite E. destruct b; reflexivity.
    + apply H2 in HR as Hlen. apply (H1 l) in HR. destruct HR as [l1 E1]. rewrite E1.
      apply (Hf a mid) with (l := l1) in HF; [|lia]. exact HF.
Qed.

(** The same when the result of the first computation is [g x] for the [x] that
    was read. *)
Lemma acc_bind_map : forall K A B X (m : M list_source K A) (f : A -> M list_source K B) (g : X -> A)
    (R : reads X) R2,
  acc m (fun ts a rest => exists x, R ts x rest /\ a = g x) ->
  (forall ts x mid, R ts x mid -> acc (f (g x)) (R2 x)) ->
  acc (bind m f) (r_bind R R2).
Proof.
  intros K A B X m f g R R2 Hm Hf ts Hl. destruct (Hm ts Hl) as [H1 H2]. split.
  - intros l b rest. unfold ok_to, bind, r_bind. split.
    + intros [l' E]. destruct (m (list_parser l ts)) as [[a|e|x|] [l1 mid]] eqn:Em; try discriminate.
      assert (Ha : exists x, R ts x mid /\ a = g x) by (apply (H1 l); exists l1; exact Em).
      pose proof (H2 _ _ Ha) as Hlen. destruct Ha as (x & Hx & ->).
      exists x, mid. split; auto. apply (Hf ts x mid Hx mid) with (l := l1).
      * lia.
      * exists l'. exact E.
    + intros (x & mid & Hx & Hb).
      assert (Ha : exists x', R ts x' mid /\ g x = g x') by eauto. pose proof (H2 _ _ Ha) as Hlen.
      apply (H1 l) in Ha. destruct Ha as [l1 E1]. rewrite E1.
      apply (Hf ts x mid Hx mid) with (l := l1) in Hb; [|lia]. exact Hb.
  - intros b rest (x & mid & Hx & Hb).
    assert (Ha : exists x', R ts x' mid /\ g x = g x') by eauto. apply H2 in Ha.
    apply (Hf ts x mid Hx mid) in Hb; lia.
Qed.

Lemma bad_bind_map : forall K A B X (m : M list_source K A) (f : A -> M list_source K B) (g : X -> A)
    (R : reads X) F1 F2,
  acc m (fun ts a rest => exists x, R ts x rest /\ a = g x) -> bad m F1 ->
  (forall ts x mid, R ts x mid -> bad (f (g x)) (F2 x)) ->
  bad (bind m f) (r_bad_bind F1 R F2).
Proof.
  intros K A B X m f g R F1 F2 Ha Hb Hf ts Hl l b rest. destruct (Ha ts Hl) as [H1 H2].
  unfold bad_to, bind, r_bad_bind. split.
  - intros [l' E]. destruct (m (list_parser l ts)) as [[a|e|x|] [l1 mid]] eqn:Em.
    + right. assert (HR : exists x, R ts x mid /\ a = g x) by (apply (H1 l); exists l1; exact Em).
      pose proof (H2 _ _ HR) as Hlen. destruct HR as (x & Hx & ->).
      exists x, mid. split; auto. apply (Hf ts x mid Hx mid) with (l := l1); [lia|].
      exists l'. exact E.
    + left. apply (Hb ts Hl l). exists l'. rewrite Em. destruct b; inversion E; subst; reflexivity.
    + left. apply (Hb ts Hl l). exists l'. rewrite Em. destruct b; inversion E; subst; reflexivity.
    + destruct b; discriminate.
  - intros [HF|(x & mid & Hx & HF)].
    + apply (Hb ts Hl l) in HF. destruct HF as [l' E]. exists l'. rewrite E. destruct b; reflexivity.
    + assert (HR : exists x', R ts x' mid /\ g x = g x') by eauto.
      apply H2 in HR as Hlen. apply (H1 l) in HR. destruct HR as [l1 E1]. rewrite E1.
      apply (Hf ts x mid Hx mid) with (l := l1) in HF; [|lia]. exact HF.
Qed.

Lemma acc_peek : forall K, acc (K := K) peek r_peek.
Proof.
  intros K ts Hl. split.
  - intros l a rest. unfold ok_to, peek, r_peek; cbn. split.
    + intros [l' E]. inversion E; auto.
    + intros [-> ->]. eexists. reflexivity.
  - intros a rest [_ ->]. auto.
Qed.

Lemma bad_peek : forall K, bad (K := K) peek r_none.
Proof.
  intros K ts Hl l b rest. unfold bad_to, r_none; cbn. split; [|tauto].
  intros [l' E]. destruct b; discriminate.
Qed.

Lemma acc_next : forall K, acc (K := K) next r_next.
Proof.
  intros K ts Hl. split.
  - intros l a rest. unfold ok_to, next, r_next; cbn. split.
    + intros [l' E]. inversion E; auto.
    + intros [-> ->]. eexists. reflexivity.
  - intros a rest [_ ->]. destruct ts; cbn; auto.
Qed.

Lemma bad_next : forall K, bad (K := K) next r_none.
Proof.
  intros K ts Hl l b rest. unfold bad_to, r_none; cbn. split; [|tauto].
  intros [l' E]. destruct b; discriminate.
Qed.

Lemma acc_error : forall K A (k : K) msg, acc (A := A) (error k msg) r_none.
Proof.
  intros K A k msg ts Hl. split; [|intros ? ? []].
  intros l a rest. unfold ok_to, error, r_none. split; [|tauto]. intros [l' E]. discriminate.
Qed.

Lemma bad_error : forall K A (k : K) msg,
  bad (A := A) (error k msg) (fun ts b rest => b = Fails k msg /\ rest = ts).
Proof.
  intros K A k msg ts Hl l b rest. unfold bad_to, error. split.
  - intros [l' E]. destruct b; inversion E; subst; auto.
  - intros [-> ->]. exists l. reflexivity.
Qed.

Lemma acc_panics : forall K A x, acc (K := K) (A := A) (panics x) r_none.
Proof.
  intros K A x ts Hl. split; [|intros ? ? []].
  intros l a rest. unfold ok_to, panics, r_none. split; [|tauto]. intros [l' E]. discriminate.
Qed.

Lemma bad_panics : forall K A x,
  bad (K := K) (A := A) (panics x) (fun ts b rest => b = Panics x /\ rest = ts).
Proof.
  intros K A x ts Hl l b rest. unfold bad_to, panics. split.
  - intros [l' E]. destruct b; inversion E; subst; auto.
  - intros [-> ->]. exists l. reflexivity.
Qed.

(** [catch] with the error discarded. *)
Definition r_catch {K A B} (R : reads A) (F : reads (failure K)) (R1 : A -> reads B) (R2 : reads B) : reads B :=
  fun ts b rest =>
    r_bind R R1 ts b rest \/ exists k msg mid, F ts (Fails k msg) mid /\ R2 mid b rest.

Definition r_bad_catch {K A} (R : reads A) (F : reads (failure K)) (F1 : A -> reads (failure K))
    (F2 : reads (failure K)) : reads (failure K) :=
  fun ts b rest =>
    (exists p, b = Panics p /\ F ts b rest) \/
    (exists a mid, R ts a mid /\ F1 a mid b rest) \/
    exists k msg mid, F ts (Fails k msg) mid /\ F2 mid b rest.

Lemma consumes_err : forall K A (m : M list_source K A) l ts e l' rest,
  cons_if fuel always never m -> length ts < fuel ->
  m (list_parser l ts) = (Err e, list_parser l' rest) ->
  m (list_parser l ts) = (bad_outcome l' (Fails (err_kind e) (err_message e)), list_parser l' rest).
Proof.
  intros K A m l ts e l' rest Hc Hl E. destruct (Hc l ts Hl I) as (pre & _ & _ & H).
  rewrite E in H |- *. cbn in *. destruct e; cbn in *; subst. reflexivity.
Qed.

Lemma consumes_len : forall K A (m : M list_source K A) l ts o l' rest,
  cons_if fuel always never m -> length ts < fuel ->
  m (list_parser l ts) = (o, list_parser l' rest) -> length rest <= length ts.
Proof.
  intros K A m l ts o l' rest Hc Hl E. destruct (Hc l ts Hl I) as (pre & H & _ & _).
  rewrite E in H. cbn in H. rewrite H, app_length. lia.
Qed.

Lemma bad_len : forall K A (m : M list_source K A) F ts b rest,
  bad m F -> cons_if fuel always never m -> length ts < fuel -> F ts b rest ->
  length rest <= length ts.
Proof.
  intros K A m F ts b rest Hb Hc Hl HF. apply (Hb ts Hl 0) in HF. destruct HF as [l' E].
  eapply consumes_len; eauto.
Qed.

Lemma acc_catch : forall K A B (m : M list_source K A) (f : A -> M list_source K B) g R F R1 R2,
  acc m R -> bad m F -> cons_if fuel always never m ->
  (forall a, acc (f a) (R1 a)) -> acc g R2 ->
  acc (r <- catch m ;; match r with inl a => f a | inr _ => g end) (r_catch R F R1 R2).
Proof.
  intros K A B m f g R F R1 R2 Ha Hb Hc Hf Hg ts Hl. destruct (Ha ts Hl) as [H1 H2]. split.
  - intros l b rest. unfold ok_to, bind, catch, r_catch, r_bind. split.
    + intros [l' E]. destruct (m (list_parser l ts)) as [[a|e|x|] [l1 mid]] eqn:Em; try discriminate.
      * left. exists a, mid. assert (HR : R ts a mid) by (apply (H1 l); exists l1; exact Em).
        split; auto. apply (Hf a mid) with (l := l1); [apply H2 in HR; lia|]. exists l'. exact E.
      * right. exists (err_kind e), (err_message e), mid.
        pose proof (consumes_len _ _ _ _ _ _ _ _ Hc Hl Em) as Hlen.
        apply consumes_err in Em; auto. split; [apply (Hb ts Hl l); exists l1; auto|].
        apply (Hg mid) with (l := l1); [lia|]. exists l'. exact E.
    + intros [(a & mid & HR & HR1)|(k & msg & mid & HF & HR2)].
      * apply H2 in HR as Hlen. apply (H1 l) in HR. destruct HR as [l1 E1]. rewrite E1.
        apply (Hf a mid) with (l := l1) in HR1; [|lia]. exact HR1.
      * pose proof (bad_len _ _ _ _ _ _ _ Hb Hc Hl HF) as Hlen.
        apply (Hb ts Hl l) in HF. destruct HF as [l1 E1]. rewrite E1. cbn.
        apply (Hg mid) with (l := l1) in HR2; [|lia]. exact HR2.
  - intros b rest [(a & mid & HR & HR1)|(k & msg & mid & HF & HR2)].
    + apply H2 in HR as Hlen. apply (Hf a mid) in HR1; lia.
    + pose proof (bad_len _ _ _ _ _ _ _ Hb Hc Hl HF) as Hlen. apply (Hg mid) in HR2; lia.
Qed.

Lemma bad_catch : forall K A B (m : M list_source K A) (f : A -> M list_source K B) g R F F1 F2,
  acc m R -> bad m F -> cons_if fuel always never m ->
  (forall a, bad (f a) (F1 a)) -> bad g F2 ->
  bad (r <- catch m ;; match r with inl a => f a | inr _ => g end) (r_bad_catch R F F1 F2).
Proof.
  intros K A B m f g R F F1 F2 Ha Hb Hc Hf Hg ts Hl l b rest. destruct (Ha ts Hl) as [H1 H2].
  unfold bad_to, bind, catch, r_bad_catch. split.
  - intros [l' E]. destruct (m (list_parser l ts)) as [[a|e|x|] [l1 mid]] eqn:Em.
    + right. left. exists a, mid. assert (HR : R ts a mid) by (apply (H1 l); exists l1; exact Em).
      split; auto. apply (Hf a mid) with (l := l1); [apply H2 in HR; lia|]. exists l'. exact E.
    + right. right. exists (err_kind e), (err_message e), mid.
      pose proof (consumes_len _ _ _ _ _ _ _ _ Hc Hl Em) as Hlen.
      apply consumes_err in Em; auto. split; [apply (Hb ts Hl l); exists l1; auto|].
      apply (Hg mid) with (l := l1); [lia|]. exists l'. exact E.
    + left. exists x. destruct b; inversion E; subst. split; auto.
      apply (Hb ts Hl l). exists l'. exact Em.
    + destruct b; discriminate.
  - intros [(p & -> & HF)|[(a & mid & HR & HF1)|(k & msg & mid & HF & HF2)]].
    + apply (Hb ts Hl l) in HF. destruct HF as [l' E]. exists l'. rewrite E. reflexivity.
    + apply H2 in HR as Hlen. apply (H1 l) in HR. destruct HR as [l1 E1]. rewrite E1.
      apply (Hf a mid) with (l := l1) in HF1; [|lia]. exact HF1.
    + pose proof (bad_len _ _ _ _ _ _ _ Hb Hc Hl HF) as Hlen.
      apply (Hb ts Hl l) in HF. destruct HF as [l1 E1]. rewrite E1. cbn.
      apply (Hg mid) with (l := l1) in HF2; [|lia]. exact HF2.
Qed.

(** ** Loops *)

Section Loop.
Context {A B : Type} (R : A -> reads (step A B)).

Inductive loops : A -> reads B :=
| loops_break a ts b rest : R a ts (Break b) rest -> loops a ts b rest
| loops_continue a ts a' mid b rest :
    R a ts (Continue a') mid -> loops a' mid b rest -> loops a ts b rest.

Inductive loops_bad {K} (F : A -> reads (failure K)) : A -> reads (failure K) :=
| bad_now a ts b rest : F a ts b rest -> loops_bad F a ts b rest
| bad_later a ts a' mid b rest :
    R a ts (Continue a') mid -> loops_bad F a' mid b rest -> loops_bad F a ts b rest.

Definition progressive : Prop :=
  forall a ts a' mid, length ts < fuel -> R a ts (Continue a') mid -> length mid < length ts.

Lemma acc_loop_n : forall K (body : A -> M list_source K (step A B)),
  (forall a, acc (body a) (R a)) -> progressive ->
  forall n a ts, length ts < n -> length ts < fuel ->
    (forall l b rest, ok_to (loop n body a) l ts b rest <-> loops a ts b rest).
Proof.
  intros K body Hb Hp. induction n as [|n IH]; intros a ts Hn Hl l b rest; [lia|].
  destruct (Hb a ts Hl) as [H1 H2]. unfold ok_to. cbn [loop]. unfold bind. split.
  - intros [l' E]. destruct (body a (list_parser l ts)) as [[[a'|b']|e|x|] [l1 mid]] eqn:Em; try discriminate.
    + assert (HR : R a ts (Continue a') mid) by (apply (H1 l); exists l1; exact Em).
      pose proof (Hp _ _ _ _ Hl HR). eapply loops_continue; [exact HR|].
      apply (IH a' mid) with (l := l1); try lia. exists l'. exact E.
    + inversion E; subst. apply loops_break. apply (H1 l). exists l'. exact Em.
  - intros HL. inversion HL as [a0 ts0 b0 rest0 HR|a0 ts0 a' mid b0 rest0 HR HL']; subst.
    + apply (H1 l) in HR. destruct HR as [l1 E1]. rewrite E1. exists l1. reflexivity.
    + pose proof (Hp _ _ _ _ Hl HR). apply (H1 l) in HR. destruct HR as [l1 E1]. rewrite E1.
      apply (IH a' mid) with (l := l1) in HL'; try lia. exact HL'.
Qed.

Lemma loops_len : forall K (body : A -> M list_source K (step A B)),
  (forall a, acc (body a) (R a)) -> progressive ->
  forall a ts b rest, loops a ts b rest -> length ts < fuel -> length rest <= length ts.
Proof.
  intros K body Hb Hp a ts b rest HL. induction HL as [a ts b rest HR|a ts a' mid b rest HR HL IH]; intros Hl.
  - destruct (Hb a ts Hl) as [_ H2]. now apply H2 in HR.
  - pose proof (Hp _ _ _ _ Hl HR). lia.
Qed.

Lemma acc_loop : forall K (body : A -> M list_source K (step A B)) a,
  (forall a, acc (body a) (R a)) -> progressive -> acc (loop fuel body a) (loops a).
Proof.
  intros K body a Hb Hp ts Hl. split.
  - intros l b rest. now apply acc_loop_n.
  - intros b rest HL. eapply loops_len; eauto.
Qed.

Lemma bad_loop_n : forall K (body : A -> M list_source K (step A B)) F,
  (forall a, acc (body a) (R a)) -> (forall a, bad (body a) (F a)) -> progressive ->
  forall n a ts, length ts < n -> length ts < fuel ->
    (forall l b rest, bad_to (loop n body a) l ts b rest <-> loops_bad F a ts b rest).
Proof.
  intros K body F Hb Hf Hp. induction n as [|n IH]; intros a ts Hn Hl l b rest; [lia|].
  destruct (Hb a ts Hl) as [H1 H2]. pose proof (Hf a ts Hl) as H3.
  unfold bad_to. cbn [loop]. unfold bind. split.
  - intros [l' E]. destruct (body a (list_parser l ts)) as [[[a'|b']|e|x|] [l1 mid]] eqn:Em.
    + assert (HR : R a ts (Continue a') mid) by (apply (H1 l); exists l1; exact Em).
      pose proof (Hp _ _ _ _ Hl HR). eapply bad_later; [exact HR|].
      apply (IH a' mid) with (l := l1); try lia. exists l'. exact E.
    + destruct b; discriminate.
    + apply bad_now. apply (H3 l). exists l'. rewrite Em. destruct b; inversion E; subst; reflexivity.
    + apply bad_now. apply (H3 l). exists l'. rewrite Em. destruct b; inversion E; subst; reflexivity.
    + destruct b; discriminate.
  - intros HL. inversion HL as [a0 ts0 b0 rest0 HF|a0 ts0 a' mid b0 rest0 HR HL']; subst.
    + apply (H3 l) in HF. destruct HF as [l1 E1]. exists l1. rewrite E1. destruct b; reflexivity.
    + pose proof (Hp _ _ _ _ Hl HR). apply (H1 l) in HR. destruct HR as [l1 E1]. rewrite E1.
      apply (IH a' mid) with (l := l1) in HL'; try lia. exact HL'.
Qed.

Lemma bad_loop : forall K (body : A -> M list_source K (step A B)) F a,
  (forall a, acc (body a) (R a)) -> (forall a, bad (body a) (F a)) -> progressive ->
  bad (loop fuel body a) (loops_bad F a).
Proof. intros K body F a Hb Hf Hp ts Hl l b rest. now apply bad_loop_n. Qed.

End Loop.

(** ** Computations that do not touch the tokens *)

(** [m] just returns [a]. *)
Definition returns {K A} (m : M list_source K A) (a : A) : Prop := forall p, m p = (Ok a, p).

Lemma returns_ret : forall K A (a : A), returns (K := K) (ret a) a.
Proof. intros K A a p. reflexivity. Qed.

Lemma returns_bind : forall K A B (m : M list_source K A) (f : A -> M list_source K B) a b,
  returns m a -> returns (f a) b -> returns (bind m f) b.
Proof. intros K A B m f a b Hm Hf p. unfold bind. now rewrite Hm, Hf. Qed.

Lemma acc_returns : forall K A (m : M list_source K A) a, returns m a -> acc m (r_ret a).
Proof.
  intros K A m a Hm ts Hl. destruct (acc_ret K A a ts Hl) as [H1 H2]. split; auto.
  intros l b rest. rewrite <- (H1 l). unfold ok_to. rewrite Hm. reflexivity.
Qed.

Lemma bad_returns : forall K A (m : M list_source K A) a, returns m a -> bad m r_none.
Proof.
  intros K A m a Hm ts Hl l b rest. rewrite <- (bad_ret K A a ts Hl l).
  unfold bad_to. rewrite Hm. reflexivity.
Qed.

(** After something that just returns. *)
Lemma acc_bind_returns : forall K A B (m : M list_source K A) (f : A -> M list_source K B) a R,
  returns m a -> acc (f a) R -> acc (bind m f) R.
Proof.
  intros K A B m f a R Hm Hf ts Hl. destruct (Hf ts Hl) as [H1 H2]. split; auto.
  intros l b rest. rewrite <- (H1 l). unfold ok_to, bind. rewrite Hm. reflexivity.
Qed.

Lemma bad_bind_returns : forall K A B (m : M list_source K A) (f : A -> M list_source K B) a F,
  returns m a -> bad (f a) F -> bad (bind m f) F.
Proof.
  intros K A B m f a F Hm Hf ts Hl l b rest. rewrite <- (Hf ts Hl l).
  unfold bad_to, bind. rewrite Hm. reflexivity.
Qed.

Lemma returns_index : forall K A (v : list A) i a, nth_error v i = Some a ->
  returns (K := K) (index v i) a.
Proof. intros K A v i a E p. unfold index. now rewrite E. Qed.

Lemma returns_for_each : forall K A X (body : A -> X -> M list_source K A) (f : A -> X -> A) xs a,
  (forall a x, In x xs -> returns (body a x) (f a x)) ->
  returns (for_each xs body a) (fold_left f xs a).
Proof.
  intros K A X body f xs. induction xs as [|x xs IH]; intros a H; cbn.
  - apply returns_ret.
  - eapply returns_bind; [apply H; now left|]. apply IH. intros. apply H. now right.
Qed.

(** ** One token list at a time *)

Definition acc_at {K A} (m : M list_source K A) (R : reads A) (ts : list bytes) : Prop :=
  (forall l a rest, ok_to m l ts a rest <-> R ts a rest) /\
  (forall a rest, R ts a rest -> length rest <= length ts).

Definition bad_at {K A} (m : M list_source K A) (F : reads (failure K)) (ts : list bytes) : Prop :=
  forall l b rest, bad_to m l ts b rest <-> F ts b rest.

Lemma acc_here : forall K A (m : M list_source K A) R ts, length ts < fuel -> acc m R -> acc_at m R ts.
Proof. intros K A m R ts Hl H. exact (H ts Hl). Qed.

Lemma bad_here : forall K A (m : M list_source K A) F ts, length ts < fuel -> bad m F -> bad_at m F ts.
Proof. intros K A m F ts Hl H. exact (H ts Hl). Qed.

Lemma acc_at_iff : forall K A (m : M list_source K A) (R R' : reads A) ts,
  (forall a rest, R ts a rest <-> R' ts a rest) -> acc_at m R ts -> acc_at m R' ts.
Proof.
  intros K A m R R' ts H [H1 H2]. split.
  - intros l a rest. rewrite H1. auto.
  - intros a rest Hr. apply H in Hr; auto. now apply H2 in Hr.
Qed.

Lemma bad_at_iff : forall K A (m : M list_source K A) (F F' : reads (failure K)) ts,
  (forall b rest, F ts b rest <-> F' ts b rest) -> bad_at m F ts -> bad_at m F' ts.
Proof. intros K A m F F' ts H Hm l b rest. rewrite (Hm l). auto. Qed.

Lemma acc_at_bind : forall K A B (m : M list_source K A) (f : A -> M list_source K B) R1 R2 ts,
  acc_at m R1 ts -> (forall a mid, R1 ts a mid -> acc_at (f a) (R2 a) mid) ->
  acc_at (bind m f) (r_bind R1 R2) ts.
Proof.
  intros K A B m f R1 R2 ts [H1 H2] Hf. split.
  - intros l b rest. unfold ok_to, bind, r_bind. split.
    + intros [l' E]. destruct (m (list_parser l ts)) as [[a|e|x|] [l1 mid]] eqn:Em; try discriminate.
      assert (Ha : R1 ts a mid) by (apply (H1 l); exists l1; exact Em).
      exists a, mid. split; auto. apply (Hf a mid Ha) with (l := l1). exists l'. exact E.
    + intros (a & mid & Ha & Hb). destruct (Hf a mid Ha) as [H3 _].
      apply (H1 l) in Ha. destruct Ha as [l1 E1]. rewrite E1.
      apply (H3 l1) in Hb. exact Hb.
  - intros b rest (a & mid & Ha & Hb). destruct (Hf a mid Ha) as [_ H4].
    apply H2 in Ha. apply H4 in Hb. lia.
Qed.

Lemma bad_at_bind : forall K A B (m : M list_source K A) (f : A -> M list_source K B) R1 F1 F2 ts,
  acc_at m R1 ts -> bad_at m F1 ts -> (forall a mid, R1 ts a mid -> bad_at (f a) (F2 a) mid) ->
  bad_at (bind m f) (r_bad_bind F1 R1 F2) ts.
Proof.
  intros K A B m f R1 F1 F2 ts [H1 H2] Hb Hf l b rest.
  unfold bad_to, bind, r_bad_bind. split.
  - intros [l' E]. destruct (m (list_parser l ts)) as [[a|e|x|] [l1 mid]] eqn:Em.
    + right. assert (HR : R1 ts a mid) by (apply (H1 l); exists l1; exact Em).
      exists a, mid. split; auto. apply (Hf a mid HR l1). exists l'. exact E.
    + left. apply (Hb l). exists l'. rewrite Em. destruct b; inversion E; subst; reflexivity.
    + left. apply (Hb l). exists l'. rewrite Em. destruct b; inversion E; subst; reflexivity.
    + destruct b; discriminate.
  - intros [HF|(a & mid & HR & HF)].
    + apply (Hb l) in HF. destruct HF as [l' E]. exists l'. rewrite E. destruct b; reflexivity.
    + pose proof (Hf a mid HR) as H3. apply (H1 l) in HR. destruct HR as [l1 E1]. rewrite E1.
      apply (H3 l1) in HF. exact HF.
Qed.

Lemma acc_at_bind_map : forall K A B X (m : M list_source K A) (f : A -> M list_source K B) (g : X -> A)
    (R : reads X) R2 ts,
  acc_at m (fun ts a rest => exists x, R ts x rest /\ a = g x) ts ->
  (forall x mid, R ts x mid -> acc_at (f (g x)) (R2 x) mid) ->
  acc_at (bind m f) (r_bind R R2) ts.
Proof.
  intros K A B X m f g R R2 ts [H1 H2] Hf. split.
  - intros l b rest. unfold ok_to, bind, r_bind. split.
    + intros [l' E]. destruct (m (list_parser l ts)) as [[a|e|x|] [l1 mid]] eqn:Em; try discriminate.
      assert (Ha : exists x, R ts x mid /\ a = g x) by (apply (H1 l); exists l1; exact Em).
      destruct Ha as (x & Hx & ->). exists x, mid. split; auto.
      apply (Hf x mid Hx) with (l := l1). exists l'. exact E.
    + intros (x & mid & Hx & Hb). destruct (Hf x mid Hx) as [H3 _].
      assert (Ha : exists x', R ts x' mid /\ g x = g x') by eauto.
      apply (H1 l) in Ha. destruct Ha as [l1 E1]. rewrite E1. apply (H3 l1) in Hb. exact Hb.
  - intros b rest (x & mid & Hx & Hb). destruct (Hf x mid Hx) as [_ H4].
    assert (Ha : exists x', R ts x' mid /\ g x = g x') by eauto. apply H2 in Ha. apply H4 in Hb. lia.
Qed.

Lemma bad_at_bind_map : forall K A B X (m : M list_source K A) (f : A -> M list_source K B) (g : X -> A)
    (R : reads X) F1 F2 ts,
  acc_at m (fun ts a rest => exists x, R ts x rest /\ a = g x) ts -> bad_at m F1 ts ->
  (forall x mid, R ts x mid -> bad_at (f (g x)) (F2 x) mid) ->
  bad_at (bind m f) (r_bad_bind F1 R F2) ts.
Proof.
  intros K A B X m f g R F1 F2 ts [H1 H2] Hb Hf l b rest.
  unfold bad_to, bind, r_bad_bind. split.
  - intros [l' E]. destruct (m (list_parser l ts)) as [[a|e|x|] [l1 mid]] eqn:Em.
    + right. assert (HR : exists x, R ts x mid /\ a = g x) by (apply (H1 l); exists l1; exact Em).
      destruct HR as (x & Hx & ->). exists x, mid. split; auto. apply (Hf x mid Hx l1). exists l'. exact E.
    + left. apply (Hb l). exists l'. rewrite Em. destruct b; inversion E; subst; reflexivity.
    + left. apply (Hb l). exists l'. rewrite Em. destruct b; inversion E; subst; reflexivity.
    + destruct b; discriminate.
  - intros [HF|(x & mid & Hx & HF)].
    + apply (Hb l) in HF. destruct HF as [l' E]. exists l'. rewrite E. destruct b; reflexivity.
    + pose proof (Hf x mid Hx) as H3. assert (HR : exists x', R ts x' mid /\ g x = g x') by eauto.
      apply (H1 l) in HR. destruct HR as [l1 E1]. rewrite E1. apply (H3 l1) in HF. exact HF.
Qed.

Lemma acc_at_peek : forall K A (f : option bytes -> M list_source K A) R ts,
  acc_at (f (hd_error ts)) R ts -> acc_at (bind peek f) R ts.
Proof. intros K A f R ts H. exact H. Qed.

Lemma bad_at_peek : forall K A (f : option bytes -> M list_source K A) F ts,
  bad_at (f (hd_error ts)) F ts -> bad_at (bind peek f) F ts.
Proof. intros K A f F ts H. exact H. Qed.

Lemma acc_at_map : forall K A B (m : M list_source K A) (g : A -> B) R ts,
  acc_at m R ts -> acc_at (bind m (fun x => ret (g x))) (fun ts b rest => exists x, R ts x rest /\ b = g x) ts.
Proof.
  intros K A B m g R ts H.
  eapply acc_at_iff; [|eapply acc_at_bind; [exact H|intros a mid _]].
  2: { instantiate (1 := fun a ts b rest => b = g a /\ rest = ts).
       split; [|intros ? ? [_ ->]; auto].
       intros l b rest. unfold ok_to, ret. split.
       - intros [l' E]. inversion E. auto.
       - intros [-> ->]. eauto. }
  intros b rest. unfold r_bind. split.
  - intros (a & mid & Ha & -> & ->). eauto.
  - intros (a & Ha & ->). eauto.
Qed.

Lemma bad_at_map : forall K A B (m : M list_source K A) (g : A -> B) F ts,
  bad_at m F ts -> bad_at (bind m (fun x => ret (g x))) F ts.
Proof.
  intros K A B m g F ts H l b rest. rewrite <- (H l). unfold bad_to, bind, ret. split.
  - intros [l' E]. exists l'.
    destruct (m (list_parser l ts)) as [[a|e|x|] p']; destruct b; inversion E; subst; reflexivity.
  - intros [l' E]. exists l'. rewrite E. destruct b; reflexivity.
Qed.

Lemma acc_at_ret : forall K A (a : A) ts, acc_at (K := K) (ret a) (r_ret a) ts.
Proof.
  intros K A a ts. split; [|intros ? ? [_ ->]; auto].
  intros l b rest. unfold ok_to, ret, r_ret. split.
  - intros [l' E]. inversion E. auto.
  - intros [-> ->]. eauto.
Qed.

Lemma bad_at_ret : forall K A (a : A) ts, bad_at (K := K) (ret a) r_none ts.
Proof.
  intros K A a ts l b rest. unfold bad_to, ret, r_none. split; [|tauto].
  intros [l' E]. destruct b; discriminate.
Qed.

Section LoopAt.
Context {A B : Type} (R : A -> reads (step A B)) (Inv : A -> list bytes -> Prop).
Context (preserved : forall a ts a' mid, Inv a ts -> length ts < fuel ->
  R a ts (Continue a') mid -> Inv a' mid /\ length mid < length ts).

Lemma acc_at_loop_n : forall K (body : A -> M list_source K (step A B)),
  (forall a ts, Inv a ts -> length ts < fuel -> acc_at (body a) (R a) ts) ->
  forall n a ts, length ts < n -> length ts < fuel -> Inv a ts ->
    (forall l b rest, ok_to (loop n body a) l ts b rest <-> loops R a ts b rest).
Proof.
  intros K body Hb. induction n as [|n IH]; intros a ts Hn Hl Hi l b rest; [lia|].
  destruct (Hb a ts Hi Hl) as [H1 H2]. unfold ok_to. cbn [loop]. unfold bind. split.
  - intros [l' E]. destruct (body a (list_parser l ts)) as [[[a'|b']|e|x|] [l1 mid]] eqn:Em; try discriminate.
    + assert (HR : R a ts (Continue a') mid) by (apply (H1 l); exists l1; exact Em).
      destruct (preserved _ _ _ _ Hi Hl HR). eapply loops_continue; [exact HR|].
      apply (IH a' mid) with (l := l1); try lia; auto. exists l'. exact E.
    + inversion E; subst. apply loops_break. apply (H1 l). exists l'. exact Em.
  - intros HL. inversion HL as [a0 ts0 b0 rest0 HR|a0 ts0 a' mid b0 rest0 HR HL']; subst.
    + apply (H1 l) in HR. destruct HR as [l1 E1]. rewrite E1. exists l1. reflexivity.
    + destruct (preserved _ _ _ _ Hi Hl HR). apply (H1 l) in HR. destruct HR as [l1 E1]. rewrite E1.
      apply (IH a' mid) with (l := l1) in HL'; try lia; auto.
Qed.

Lemma acc_at_loop : forall K (body : A -> M list_source K (step A B)) a ts,
  (forall a ts, Inv a ts -> length ts < fuel -> acc_at (body a) (R a) ts) ->
  length ts < fuel -> Inv a ts -> acc_at (loop fuel body a) (loops R a) ts.
Proof.
  intros K body a ts Hb Hl Hi. split.
  - intros l b rest. now apply acc_at_loop_n.
  - intros b rest HL. revert Hl Hi.
    induction HL as [a ts b rest HR|a ts a' mid b rest HR HL IH]; intros Hl Hi.
    + destruct (Hb a ts Hi Hl) as [_ H2]. now apply H2 in HR.
    + destruct (preserved _ _ _ _ Hi Hl HR) as [Hi' Hlt].
      assert (length rest <= length mid) by (apply IH; auto; lia). lia.
Qed.

Lemma bad_at_loop_n : forall K (body : A -> M list_source K (step A B)) F,
  (forall a ts, Inv a ts -> length ts < fuel -> acc_at (body a) (R a) ts) ->
  (forall a ts, Inv a ts -> length ts < fuel -> bad_at (body a) (F a) ts) ->
  forall n a ts, length ts < n -> length ts < fuel -> Inv a ts ->
    (forall l b rest, bad_to (loop n body a) l ts b rest <-> loops_bad R F a ts b rest).
Proof.
  intros K body F Hb Hf. induction n as [|n IH]; intros a ts Hn Hl Hi l b rest; [lia|].
  destruct (Hb a ts Hi Hl) as [H1 H2]. pose proof (Hf a ts Hi Hl) as H3.
  unfold bad_to. cbn [loop]. unfold bind. split.
  - intros [l' E]. destruct (body a (list_parser l ts)) as [[[a'|b']|e|x|] [l1 mid]] eqn:Em.
    + assert (HR : R a ts (Continue a') mid) by (apply (H1 l); exists l1; exact Em).
      destruct (preserved _ _ _ _ Hi Hl HR). eapply bad_later; [exact HR|].
      apply (IH a' mid) with (l := l1); try lia; auto. exists l'. exact E.
    + destruct b; discriminate.
    + apply bad_now. apply (H3 l). exists l'. rewrite Em. destruct b; inversion E; subst; reflexivity.
    + apply bad_now. apply (H3 l). exists l'. rewrite Em. destruct b; inversion E; subst; reflexivity.
    + destruct b; discriminate.
  - intros HL. inversion HL as [a0 ts0 b0 rest0 HF|a0 ts0 a' mid b0 rest0 HR HL']; subst.
    + apply (H3 l) in HF. destruct HF as [l1 E1]. exists l1. rewrite E1. destruct b; reflexivity.
    + destruct (preserved _ _ _ _ Hi Hl HR). apply (H1 l) in HR. destruct HR as [l1 E1]. rewrite E1.
      apply (IH a' mid) with (l := l1) in HL'; try lia; auto.
Qed.

Lemma bad_at_loop : forall K (body : A -> M list_source K (step A B)) F a ts,
  (forall a ts, Inv a ts -> length ts < fuel -> acc_at (body a) (R a) ts) ->
  (forall a ts, Inv a ts -> length ts < fuel -> bad_at (body a) (F a) ts) ->
  length ts < fuel -> Inv a ts -> bad_at (loop fuel body a) (loops_bad R F a) ts.
Proof. intros K body F a ts Hb Hf Hl Hi l b rest. now apply bad_at_loop_n. Qed.

End LoopAt.

End Run.
