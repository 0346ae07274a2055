(** The debug build against the release build: [over m1 m2 P ts] - started on
    [ts], the debug run [m1] ends in an overflow panic if [P] holds, and is the
    release run [m2] otherwise. *)
From Verif Require Import ObjView ObjMeaning ObjReach.
From Verif Require Import ObjModel LexerProofs SourceProofs ConsumeProofs TotalProofs RunProofs
  ObjErrorSpec ObjAccept ObjElements ObjBody ObjState ObjFile ObjTop.
Local Open Scope list_scope.

Definition over {K A} (m1 m2 : M list_source K A) (P : Prop) (ts : list bytes) : Prop :=
  forall l, (P /\ exists p, m1 (list_parser l ts) = (Panic PanicOverflow, p)) \/
            (~ P /\ m1 (list_parser l ts) = m2 (list_parser l ts)).

Lemma over_iff : forall K A (m1 m2 : M list_source K A) P P' ts, (P <-> P') -> over m1 m2 P ts -> over m1 m2 P' ts.
Proof. intros K A m1 m2 P P' ts H Ho l. destruct (Ho l) as [[H1 H2]|[H1 H2]]; [left|right]; tauto. Qed.

Lemma over_same : forall K A (m : M list_source K A) ts, over m m False ts.
Proof. intros K A m ts l. right. auto. Qed.

Lemma over_bind_same : forall K A B (m1 m2 : M list_source K A) (f : A -> M list_source K B) P ts,
  over m1 m2 P ts -> over (bind m1 f) (bind m2 f) P ts.
Proof.
  intros K A B m1 m2 f P ts H l. unfold bind. destruct (H l) as [[HP [p E]]|[HP E]]; rewrite E; [left|right]; eauto.
Qed.

Lemma over_catch : forall K A (m1 m2 : M list_source K A) P ts, over m1 m2 P ts -> over (catch m1) (catch m2) P ts.
Proof.
  intros K A m1 m2 P ts H l. unfold catch. destruct (H l) as [[HP [p E]]|[HP E]]; rewrite E; [left|right]; eauto.
Qed.

Lemma over_bind : forall K A B (m1 m2 : M list_source K A) (f1 f2 : A -> M list_source K B) R P Q ts,
  acc_at m2 R ts -> over m1 m2 P ts -> (forall a mid, R ts a mid -> over (f1 a) (f2 a) (Q a mid) mid) ->
  over (bind m1 f1) (bind m2 f2) (P \/ exists a mid, R ts a mid /\ Q a mid) ts.
Proof.
  intros K A B m1 m2 f1 f2 R P Q ts [Ha _] Hm Hf l. unfold bind.
  destruct (Hm l) as [[HP [p E]]|[HP E]]; rewrite E; [left; eauto|].
  assert (Hn : forall o p, m2 (list_parser l ts) = (o, p) -> (forall a, o <> Ok a) ->
                           ~ (P \/ exists a mid, R ts a mid /\ Q a mid)).
  { intros o p E' Ho [HP'|(a & mid & HR & _)]; [auto|]. apply (Ha l) in HR. destruct HR as [l' E'']. rewrite E' in E''.
    inversion E''; subst. eapply Ho; eauto. }
  destruct (m2 (list_parser l ts)) as [[a|e|x|] [l1 mid]] eqn:E2;
    try (right; split; [eapply Hn; eauto; discriminate|reflexivity]).
  assert (HR : R ts a mid) by (apply (Ha l); exists l1; exact E2).
  destruct (Hf a mid HR l1) as [[HQ [p E1]]|[HQ E1]]; [left; split; [eauto|exists p; exact E1]|].
  right. split; [|exact E1]. intros [HP'|(a' & mid' & HR' & HQ')]; [auto|].
  apply (Ha l) in HR'. destruct HR' as [l' E']. rewrite E2 in E'. inversion E'; subst. auto.
Qed.

(** The first part is the same in both builds. *)
Lemma over_after : forall K A B (m : M list_source K A) (f1 f2 : A -> M list_source K B) R Q ts,
  acc_at m R ts -> (forall a mid, R ts a mid -> over (f1 a) (f2 a) (Q a mid) mid) ->
  over (bind m f1) (bind m f2) (exists a mid, R ts a mid /\ Q a mid) ts.
Proof.
  intros. eapply over_iff; [|eapply over_bind; [eassumption|apply over_same|eassumption]]. cbn. tauto.
Qed.

Lemma over_peek : forall K A (f1 f2 : option bytes -> M list_source K A) P ts,
  over (f1 (hd_error ts)) (f2 (hd_error ts)) P ts -> over (bind peek f1) (bind peek f2) P ts.
Proof. intros K A f1 f2 P ts H. exact H. Qed.

Inductive loops_over {A B} (R : A -> reads (step A B)) (O : A -> list bytes -> Prop) : A -> list bytes -> Prop :=
| over_now a ts : O a ts -> loops_over R O a ts
| over_later a ts a' mid : R a ts (Continue a') mid -> loops_over R O a' mid -> loops_over R O a ts.

Section Loop.
Context (fuel : nat) {A B : Type} (R : A -> reads (step A B)) (Inv : A -> list bytes -> Prop).
Context (preserved : forall a ts a' mid, Inv a ts -> length ts < fuel ->
  R a ts (Continue a') mid -> Inv a' mid /\ length mid < length ts).

Lemma over_loop_n : forall K (b1 b2 : A -> M list_source K (step A B)) (O : A -> list bytes -> Prop),
  (forall a ts, Inv a ts -> length ts < fuel -> acc_at (b2 a) (R a) ts) ->
  (forall a ts, Inv a ts -> length ts < fuel -> over (b1 a) (b2 a) (O a ts) ts) ->
  forall n a ts, length ts < n -> length ts < fuel -> Inv a ts ->
    over (loop n b1 a) (loop n b2 a) (loops_over R O a ts) ts.
Proof.
  intros K b1 b2 O Ha Ho. induction n as [|n IH]; intros a ts Hn Hl Hi; [lia|].
  cbn [loop]. eapply over_iff; [|eapply over_bind; [apply Ha; auto|apply Ho; auto|]].
  2: { intros r mid HR. instantiate (1 := fun r mid => match r with Continue a' => loops_over R O a' mid | Break _ => False end).
       destruct r as [a'|b]; cbn beta; [|apply over_same].
       destruct (preserved _ _ _ _ Hi Hl HR). apply IH; auto; lia. }
  split.
  - intros [H|(r & mid & HR & H)]; [now apply over_now|]. destruct r; [eapply over_later; eauto|contradiction].
  - intros H. inversion H; subst; [auto|]. right. exists (Continue a'), mid. auto.
Qed.

Lemma over_loop : forall K (b1 b2 : A -> M list_source K (step A B)) (O : A -> list bytes -> Prop) a ts,
  (forall a ts, Inv a ts -> length ts < fuel -> acc_at (b2 a) (R a) ts) ->
  (forall a ts, Inv a ts -> length ts < fuel -> over (b1 a) (b2 a) (O a ts) ts) ->
  length ts < fuel -> Inv a ts ->
  over (loop fuel b1 a) (loop fuel b2 a) (loops_over R O a ts) ts.
Proof. intros. apply over_loop_n; auto. Qed.
End Loop.

(** * Indices *)

Section Debug.
Context (fuel : nat).

Lemma over_calculate_index : forall lo hi z ts, small hi -> in_isize z = true ->
  over (calculate_index true (lo, hi) z) (calculate_index false (lo, hi) z)
    ((z < 0)%Z /\ (isize_max < Z.of_nat hi - z)%Z) ts.
Proof.
  intros lo hi z ts Hs Hz l. unfold calculate_index, small in *.
  assert (Hz' : (isize_min <= z <= isize_max)%Z).
  { unfold in_isize in Hz. apply andb_true_iff in Hz. destruct Hz as [H1 H2]. apply Z.leb_le in H1. apply Z.leb_le in H2. auto. }
  assert (Hin : forall a b, (isize_min <= a - b <= isize_max)%Z -> forall d p,
    isize_sub (S := list_source) (K := error_kind) d a b p = (Ok (a - b)%Z, p)).
  { intros a b H d p. unfold isize_sub, in_isize. replace ((isize_min <=? a - b)%Z && (a - b <=? isize_max)%Z) with true; [reflexivity|].
    symmetry. apply andb_true_iff. split; apply Z.leb_le; lia. }
  assert (Hrest : forall v, (isize_min <= v <= isize_max)%Z -> forall d p,
    (if (Z.of_nat lo <=? v)%Z && (v <? Z.of_nat hi)%Z then
      debug_assert (S := list_source) (K := error_kind) d (0 <=? v)%Z ;;;
      difference <- isize_sub d v (Z.of_nat lo) ;;
      ret (Z.to_nat difference)
     else error VTNIndexOutOfRange (msg_range lo hi v)) p =
    (if (Z.of_nat lo <=? v)%Z && (v <? Z.of_nat hi)%Z then (Ok (Z.to_nat (v - Z.of_nat lo)), p)
     else error VTNIndexOutOfRange (msg_range lo hi v) p)).
  { intros v Hv d p. destruct ((Z.of_nat lo <=? v)%Z && (v <? Z.of_nat hi)%Z) eqn:E; [|reflexivity].
    apply andb_true_iff in E. destruct E as [E1 E2]. apply Z.leb_le in E1. apply Z.ltb_lt in E2.
    unfold bind, debug_assert. replace (0 <=? v)%Z with true by (symmetry; apply Z.leb_le; lia).
    destruct d; cbn [negb andb]; unfold ret at 1; cbn beta iota; rewrite Hin by (unfold isize_min, isize_max in *; lia); reflexivity. }
  unfold msg_range in Hrest.
  assert (Hb : forall X Y (m : M list_source error_kind X) (f : X -> M list_source error_kind Y) p a q,
    m p = (Ok a, q) -> bind m f p = f a q) by (intros X Y m f p a q E; unfold bind; now rewrite E).
  destruct (Z.leb_spec z 0) as [Hle|Hle].
  - destruct (Z_le_gt_dec (Z.of_nat hi - z) isize_max) as [Hr|Hr].
    + right. split; [lia|]. erewrite !Hb by (apply Hin; unfold isize_min, isize_max in *; lia).
    rewrite !Hrest by (unfold isize_min, isize_max in *; lia). reflexivity.
    + left. split; [lia|]. unfold bind at 1. unfold isize_sub at 1, in_isize.
      replace (Z.of_nat hi - z <=? isize_max)%Z with false by (symmetry; apply Z.leb_gt; lia). rewrite andb_false_r. eexists. reflexivity.
  - right. split; [lia|]. erewrite !Hb by (apply Hin; unfold isize_min, isize_max in *; lia).
    rewrite !Hrest by (unfold isize_min, isize_max in *; lia). reflexivity.
Qed.

Lemma over_index_token : forall hi t A (f1 f2 : Z -> M list_source error_kind A) g ts,
  (forall z, RustStd.parse_isize t = Some z -> over (f1 z) (f2 z) ((z < 0)%Z /\ (isize_max < Z.of_nat hi - z)%Z) ts) ->
  over (match RustStd.parse_isize t with Some z => f1 z | None => g end)
       (match RustStd.parse_isize t with Some z => f2 z | None => g end) (too_low hi t) ts.
Proof.
  intros hi t A f1 f2 g ts H. unfold too_low. destruct (RustStd.parse_isize t) as [z|].
  - eapply over_iff; [|now apply H]. split; [intros [? ?]; eauto|]. intros (z' & E & ?). inversion E; subst. auto.
  - eapply over_iff; [|apply over_same]. split; [tauto|]. intros (z & E & _). discriminate.
Qed.

Lemma over_process_split : forall lo hi p ts, small hi ->
  over (process_split true p (lo, hi)) (process_split false p (lo, hi)) (too_low hi p) ts.
Proof.
  intros lo hi p ts Hs. unfold process_split. destruct p as [|c p].
  - eapply over_iff; [|apply over_same]. split; [tauto|]. intros (z & E & _). discriminate.
  - apply over_index_token. intros z E. apply over_bind_same. apply over_calculate_index; auto. eapply parse_isize_range; eauto.
Qed.

Definition next_too_low (hi : nat) (ps : list bytes) : Prop :=
  match ps with [] => False | p :: _ => too_low hi p end.

Lemma over_process_next : forall lo hi ps ts, small hi ->
  over (process_next true ps (lo, hi)) (process_next false ps (lo, hi)) (next_too_low hi ps) ts.
Proof.
  intros lo hi ps ts Hs. destruct ps as [|p ps]; [apply over_same|]. cbn [process_next next_too_low].
  apply over_bind_same. now apply over_process_split.
Qed.

Definition low_third (now : counts) (r : option nat * list bytes) (mid : list bytes) : Prop :=
  next_too_low (n_n now) (snd r).

Definition low_second (base now : counts) (r : option nat * list bytes) (mid : list bytes) : Prop :=
  next_too_low (n_t now) (snd r) \/
  exists r' mid', next_part (n_t base) (n_t now) (snd r) mid r' mid' /\ low_third now r' mid'.

Definition low_first (base now : counts) (t : bytes) (mid : list bytes) : Prop :=
  next_too_low (n_v now) (split_on "/"%char t) \/
  exists r' mid', next_part (n_v base) (n_v now) (split_on "/"%char t) mid r' mid' /\ low_second base now r' mid'.

Lemma low_first_iff : forall base now t mid, low_first base now t mid <-> ref_too_low base now t.
Proof.
  intros base now t mid. unfold low_first, low_second, low_third.
  pose proof (proj2 (parts_split t _) eq_refl) as Hp.
  assert (Hq : forall ps, parts_of t ps -> ps = split_on "/"%char t) by (intros ps; apply parts_split).
  destruct (split_on "/"%char t) as [|p ps]; [destruct Hp; congruence|]. cbn [next_too_low]. split.
  - intros [H|([o l] & m & H1 & H)]; [eapply low_v; eauto|].
    apply next_part_good in H1. destruct H1 as (-> & -> & G1 & _). cbn [snd] in H.
    destruct ps as [|q ps].
    { destruct H as [[]|([o2 l2] & m2 & (_ & E & _) & H)]. cbn [snd] in *. subst. contradiction. }
    destruct H as [H|([o2 l2] & m2 & H2 & H)]; [eapply low_t; eauto|].
    apply next_part_good in H2. destruct H2 as (-> & -> & G2 & _). cbn [snd] in H.
    destruct ps as [|r ps]; [contradiction|]. eapply low_n; eauto.
  - intros [p' ps' H HL|p' q ps' H HG HL|p' q r ps' H HG HG2 HL]; apply Hq in H; inversion H; subst; clear H.
    + now left.
    + right. destruct (good_next_part _ _ _ (q :: ps') mid HG) as (o & H & _). exists (o, q :: ps'), mid. split; auto.
    + right. destruct (good_next_part _ _ _ (q :: r :: ps') mid HG) as (o & H & _). exists (o, q :: r :: ps'), mid. split; auto.
      right. destruct (good_next_part _ _ _ (r :: ps') mid HG2) as (o2 & H2 & _). exists (o2, r :: ps'), mid. auto.
Qed.

Lemma over_parse_ref : forall base now ts, small_counts now -> length ts < fuel ->
  over (parse_vtn_index true (v_range base now) (t_range base now) (n_range base now)) (parse_ref base now)
    (match ts with [] => False | t :: _ => ref_too_low base now t end) ts.
Proof.
  intros base now ts (Hv & Ht & Hn) Hl. unfold parse_ref, parse_vtn_index.
  eapply over_iff; [|eapply over_after with (Q := low_first base now); [eapply acc_here; [exact Hl|apply acc_next_string]|]].
  2: { intros t mid HR. cbn beta in HR. cbn beta zeta.
       assert (Hm : length mid < fuel) by (subst; cbn in Hl; lia).
       unfold v_range, t_range, n_range.
       eapply over_bind with (Q := low_second base now); [eapply acc_here; [exact Hm|now apply acc_process_next]|now apply over_process_next|].
       intros [o1 l1] m1 H1. cbn beta iota.
       assert (E1 : m1 = mid) by (now destruct H1). subst m1.
       eapply over_bind with (Q := low_third now); [eapply acc_here; [exact Hm|now apply acc_process_next]|now apply over_process_next|].
       intros [o2 l2] m2 H2. cbn beta iota.
       assert (E2 : m2 = mid) by (now destruct H2). subst m2.
       eapply over_bind_same. now apply over_process_next. }
  cbn beta. split.
  - intros (t & mid & -> & H). now apply low_first_iff in H.
  - destruct ts as [|t ts]; [tauto|]. intros H. exists t, ts. split; auto. now apply low_first_iff.
Qed.

(** * Elements *)

Definition low_head (base now : counts) (ts : list bytes) : Prop :=
  match ts with [] => False | t :: _ => ref_too_low base now t end.

Definition low_refs (base now : counts) (ts : list bytes) : Prop :=
  exists toks rs t rest, ts = toks ++ t :: rest /\ Forall2 (valid_ref base now) toks rs /\ ref_too_low base now t.

Lemma over_parse_refs : forall base now is ts, small_counts now -> length ts < fuel ->
  over (parse_vtn_indices true fuel is (v_range base now) (t_range base now) (n_range base now))
       (parse_vtn_indices false fuel is (v_range base now) (t_range base now) (n_range base now))
    (low_refs base now ts) ts.
Proof.
  intros base now is ts Hs Hl. unfold parse_vtn_indices.
  eapply over_iff; [|apply (over_loop fuel (refs_round base now) (fun _ _ => True)) with (O := fun _ => low_head base now); auto].
  - generalize (0, is). intros a. split.
    + intros H. induction H as [a ts H|a ts a' mid H HL IH].
      * destruct ts as [|t ts]; [destruct H|]. exists [], [], t, ts. auto.
      * assert (Hlm : length mid < fuel) by (pose proof (progressive_refs fuel base now a ts a' mid Hl H); lia).
        destruct ts as [|t ts]; cbn in H; [destruct H; discriminate|]. destruct H as (-> & [(r & Hr & _)|(_ & H)]); [|discriminate].
        destruct (IH Hlm) as (toks & rs & t' & rest & -> & HF & Hlow). exists (t :: toks), (r :: rs), t', rest. auto.
    + intros (toks & rs & t & rest & -> & HF & Hlow). clear Hl. revert a. induction HF as [|t' r toks rs Hr HF IH]; intros a.
      * apply over_now. exact Hlow.
      * eapply over_later; [|apply IH]. cbn. split; auto. left. exists r. split; auto.
  - intros a ts' a' mid _ Hl' H. split; auto. eapply progressive_refs; eauto.
  - intros a ts' _ Hl'. eapply acc_here; [exact Hl'|now apply acc_refs_body].
  - intros [n is'] ts' _ Hl'. apply over_bind_same. apply over_catch. now apply over_parse_ref.
Qed.

Lemma over_ext : forall K A (m1 m2 n1 n2 : M list_source K A) P ts,
  (forall p, m1 p = n1 p) -> (forall p, m2 p = n2 p) -> over n1 n2 P ts -> over m1 m2 P ts.
Proof. intros K A m1 m2 n1 n2 P ts H1 H2 H l. rewrite H1, H2. apply H. Qed.

Lemma over_expect : forall A tag (f1 f2 : unit -> M list_source error_kind A) Q ts, length ts < fuel ->
  (forall ts', ts = tag :: ts' -> over (f1 tt) (f2 tt) (Q ts') ts') ->
  over (bind (expect_tag tag) f1) (bind (expect_tag tag) f2) (exists ts', ts = tag :: ts' /\ Q ts') ts.
Proof.
  intros A tag f1 f2 Q ts Hl Hf.
  eapply over_iff; [|eapply over_after with (Q := fun _ => Q); [eapply acc_here; [exact Hl|apply acc_expect_tag]|]].
  - cbn beta. split; [intros (_ & ts' & H); eauto|]. intros (ts' & H). exists tt, ts'. exact H.
  - intros [] ts' E. now apply Hf.
Qed.

Definition index_of (dbg : bool) (base now : counts) (t : bytes) : M list_source error_kind nat :=
  match RustStd.parse_isize t with
  | Some val => calculate_index dbg (v_range base now) val
  | None => error_expected_integer t
  end.

Lemma over_index_of : forall base now t ts, small_counts now ->
  over (index_of true base now t) (parse_index base now t) (too_low (n_v now) t) ts.
Proof.
  intros base now t ts [Hs _]. unfold index_of, parse_index. apply over_index_token. intros z E.
  apply over_calculate_index; auto. eapply parse_isize_range; eauto.
Qed.

Definition low_point (now : counts) (ts : list bytes) : Prop :=
  match ts with [] => False | t :: _ => too_low (n_v now) t end.

Definition low_points (base now : counts) (ts : list bytes) : Prop :=
  exists toks ks t rest, ts = toks ++ t :: rest /\ Forall2 (point_token base now) toks ks /\ too_low (n_v now) t.

Lemma low_not_nl : forall now, ~ too_low now nl.
Proof. intros now (z & E & _). discriminate. Qed.

Definition points_body (dbg : bool) (base now : counts) : nat * list element ->
    M list_source error_kind (step (nat * list element) (nat * list element)) :=
  fun '(elements_parsed, elements) =>
    t <- next ;;
    match t with
    | Some st =>
        if negb (bytes_eqb st nl) then
          match RustStd.parse_isize st with
          | Some val =>
              v_index <- calculate_index dbg (v_range base now) val ;;
              ret (Continue (elements_parsed + 1, elements ++ [Point (V v_index)]))
          | None => error_expected_integer st
          end
        else ret (Break (elements_parsed, elements))
    | None => ret (Break (elements_parsed, elements))
    end.

Lemma over_points : forall base now a ts, small_counts now -> length ts < fuel ->
  over (loop fuel (points_body true base now) a) (loop fuel (point_body base now) a) (low_points base now ts) ts.
Proof.
  intros base now a ts Hs Hl.
  eapply over_iff; [|apply (over_loop fuel (point_round base now) (fun _ _ => True)) with (O := fun _ => low_point now); auto].
  - split.
    + intros H. induction H as [a ts H|a ts a' mid H HL IH].
      * destruct ts as [|t ts]; [destruct H|]. exists [], [], t, ts. auto.
      * assert (Hlm : length mid < fuel) by (pose proof (progressive_point fuel base now a ts a' mid Hl H); lia).
        destruct ts as [|t ts]; cbn in H; [destruct H; discriminate|]. destruct H as (-> & [(_ & H)|(k & Hk & _)]); [discriminate|].
        destruct (IH Hlm) as (toks & ks & t' & rest & -> & HF & Hlow). exists (t :: toks), (k :: ks), t', rest. auto.
    + intros (toks & ks & t & rest & -> & HF & Hlow). clear Hl. revert a. induction HF as [|t' k toks ks Hk HF IH]; intros a.
      * apply over_now. exact Hlow.
      * eapply over_later; [|apply IH]. cbn. split; auto. right. exists k. split; auto.
  - intros a0 ts' a' mid _ Hl' H. split; auto. eapply progressive_point; eauto.
  - intros a0 ts' _ Hl'. eapply acc_here; [exact Hl'|now apply acc_point_body].
  - intros [n els] ts' _ Hl'. cbn [points_body point_body].
    eapply over_iff; [|eapply over_after with
      (Q := fun t _ => match t with Some st => too_low (n_v now) st | None => False end);
      [eapply acc_here; [exact Hl'|apply acc_next]|]].
    + split; [intros (t & mid & [-> ->] & H); destruct ts'; exact H|].
      intros H. exists (hd_error ts'), (tl ts'). split; [split; reflexivity|]. destruct ts'; exact H.
    + intros [t|] mid _; [|apply over_same]. destruct (bytes_eqb_spec t nl) as [->|Hn]; cbn [negb].
      * eapply over_iff; [|apply over_same]. split; [tauto|]. apply low_not_nl.
      * apply over_index_token. intros z E. apply over_bind_same. destruct Hs as [Hs _].
        apply over_calculate_index; auto. eapply parse_isize_range; eauto.
Qed.

Lemma over_parse_point : forall base now els ts, small_counts now -> length ts < fuel ->
  over (parse_point true fuel els (v_range base now)) (parse_point false fuel els (v_range base now))
    (exists ts', ts = lit "p" :: ts' /\ low_points base now ts') ts.
Proof.
  intros base now els ts Hs Hl.
  eapply over_ext with
    (n1 := (expect_tag (lit "p") ;;; t <- next_string ;; i <- index_of true base now t ;;
            loop fuel (points_body true base now) (1, els ++ [Point (V i)])))
    (n2 := (expect_tag (lit "p") ;;; t <- next_string ;; i <- parse_index base now t ;;
            loop fuel (point_body base now) (1, els ++ [Point (V i)]))).
  1-2: intros p; unfold parse_point, ObjModel.parse_isize, index_of, parse_index, bind;
    destruct (expect_tag (lit "p") p) as [[u|e|x|] p1]; auto;
    destruct (next_string p1) as [[t|e|x|] p2]; auto;
    destruct (RustStd.parse_isize t); auto.
  apply over_expect; [exact Hl|]. intros ts' ->. cbn in Hl.
  eapply over_iff; [|eapply over_after with
      (Q := fun t mid => too_low (n_v now) t \/ exists i mid',
         (mid' = mid /\ exists k, point_token base now t k /\ i = local_index (n_v base) k) /\ low_points base now mid');
      [apply (acc_here fuel); [lia|apply acc_next_string]|]].
  - split.
    + intros (t & mid & -> & [H|(i & mid' & (-> & k & Hk & _) & toks & ks & t' & rest & -> & HF & Hlow)]).
      * exists [], [], t, mid. auto.
      * exists (t :: toks), (k :: ks), t', rest. auto.
    + intros (toks & ks & t & rest & -> & HF & Hlow). destruct HF as [|t' k toks ks Hk HF].
      * exists t, rest. auto.
      * exists t', (toks ++ t :: rest). split; [reflexivity|]. right. exists (local_index (n_v base) k), (toks ++ t :: rest).
        split; [eauto|]. exists toks, ks, t, rest. auto.
  - intros t mid E. cbn beta in E. subst ts'. cbn in Hl. cbn beta.
    eapply (over_bind _ _ _ _ _ _ _
      (fun ts i rest => rest = ts /\ exists k, point_token base now t k /\ i = local_index (n_v base) k)
      (too_low (n_v now) t) (fun _ mid' => low_points base now mid'));
      [apply (acc_here fuel); [lia|now apply acc_parse_index]|now apply over_index_of|].
    intros i mid' (-> & _). apply over_points; auto. lia.
Qed.

Lemma over_parse_face : forall base now els ts, small_counts now -> length ts < fuel ->
  over (parse_face true fuel els (v_range base now) (t_range base now) (n_range base now))
       (parse_face false fuel els (v_range base now) (t_range base now) (n_range base now))
    (exists ts', ts = lit "f" :: ts' /\ low_refs base now ts') ts.
Proof.
  intros base now els ts Hs Hl. unfold parse_face. apply over_expect; [exact Hl|]. intros ts' ->. cbn in Hl.
  eapply over_iff; [|eapply over_bind with (Q := fun _ _ => False);
    [apply (acc_here fuel); [lia|now apply acc_parse_refs]|apply over_parse_refs; auto; lia|]].
  - split; [intros [H|(? & ? & _ & [])]; exact H|auto].
  - intros [n is] mid (rs & _ & E). cbn [app] in E. inversion E; subst. cbn beta iota.
    intros l. right. split; [tauto|]. rewrite map_length. destruct (Nat.ltb_spec (length rs) 3) as [Hlt|Hge]; [reflexivity|].
    destruct rs as [|r1 [|r2 [|r3 rs]]]; cbn in Hge; try lia.
    reflexivity.
Qed.

Lemma over_parse_line : forall base now els ts, small_counts now -> length ts < fuel ->
  over (parse_line true fuel els (v_range base now) (t_range base now) (n_range base now))
       (parse_line false fuel els (v_range base now) (t_range base now) (n_range base now))
    (exists ts', ts = lit "l" :: ts' /\ low_refs base now ts') ts.
Proof.
  intros base now els ts Hs Hl. unfold parse_line. apply over_expect; [exact Hl|]. intros ts' ->. cbn in Hl.
  eapply over_iff; [|eapply over_bind with (Q := fun _ mid => low_head base now mid \/
      exists i2 mid2, (exists r, one_ref base now mid r mid2 /\ i2 = local_ref base r) /\ low_refs base now mid2);
    [apply (acc_here fuel); [lia|now apply acc_one_ref]|apply over_parse_ref; auto; lia|]].
  - split.
    + intros [H|(i & mid & (r & (t & -> & Hr) & _) & [H|(i2 & mid2 & (r2 & (t2 & -> & Hr2) & _) & toks & rs & t3 & rest & -> & HF & H)])].
      * destruct ts' as [|t ts']; [destruct H|]. exists [], [], t, ts'. auto.
      * destruct mid as [|t2 mid]; [destruct H|]. exists [t], [r], t2, mid. auto.
      * exists (t :: t2 :: toks), (r :: r2 :: rs), t3, rest. auto.
    + intros (toks & rs & t & rest & -> & HF & Hlow). destruct HF as [|t1 r1 toks rs V1 HF]; [left; exact Hlow|].
      right. exists (local_ref base r1), (toks ++ t :: rest). split; [exists r1; split; [exists t1; auto|auto]|].
      destruct HF as [|t2 r2 toks rs V2 HF]; [left; exact Hlow|].
      right. exists (local_ref base r2), (toks ++ t :: rest). split; [exists r2; split; [exists t2; auto|auto]|].
      exists toks, rs, t, rest. auto.
  - intros i1 mid (r1 & (t1 & -> & V1) & ->). cbn in Hl.
    eapply (over_bind _ _ _ _ _ _ _
      (fun ts i2 mid2 => exists r, one_ref base now ts r mid2 /\ i2 = local_ref base r)
      (low_head base now mid) (fun _ mid2 => low_refs base now mid2));
      [apply (acc_here fuel); [lia|now apply acc_one_ref]|apply over_parse_ref; auto; lia|].
    intros i2 mid2 (r2 & (t2 & -> & V2) & ->). cbn in Hl.
    eapply over_iff; [|eapply over_bind with (Q := fun _ _ => False);
      [apply (acc_here fuel); [lia|now apply acc_parse_refs]|apply over_parse_refs; auto; lia|]].
    + split; [intros [H|(? & ? & _ & [])]; exact H|auto].
    + intros [n is] mid3 (rs & _ & E). cbn [app] in E. inversion E; subst. cbn beta iota.
      intros l. right. split; [tauto|]. reflexivity.
Qed.

(** An element statement, by its first token. *)
Lemma over_parse_elements : forall base now els ts, small_counts now -> length ts < fuel ->
  over (parse_elements true fuel els (v_range base now) (t_range base now) (n_range base now))
       (parse_elements false fuel els (v_range base now) (t_range base now) (n_range base now))
    (overflows base now ts) ts.
Proof.
  intros base now els ts Hs Hl. unfold parse_elements. apply over_peek.
  assert (Hiff : overflows base now ts <->
    (exists ts', ts = lit "p" :: ts' /\ low_points base now ts') \/
    (exists ts', ts = lit "l" :: ts' /\ low_refs base now ts') \/
    (exists ts', ts = lit "f" :: ts' /\ low_refs base now ts')).
  { split.
    - intros [toks ks t rest HF H|toks rs t rest HF H|toks rs t rest HF H]; [left|right; left|right; right];
        (eexists; split; [reflexivity|]); eexists _, _, _, _; eauto.
    - intros [(ts' & -> & toks & ks & t & rest & -> & HF & H)|[(ts' & -> & toks & ks & t & rest & -> & HF & H)|
             (ts' & -> & toks & ks & t & rest & -> & HF & H)]]; econstructor; eauto. }
  unfold is_tok. destruct ts as [|t ts]; cbn [hd_error].
  { eapply over_iff; [|apply over_same]. split; [tauto|]. intros H. inversion H. }
  destruct (bytes_eqb_spec t (lit "p")) as [->|Hp].
  { eapply over_iff; [|apply over_parse_point; auto]. rewrite Hiff. split; [auto|].
    intros [H|[(ts' & E & _)|(ts' & E & _)]]; [exact H|discriminate E|discriminate E]. }
  destruct (bytes_eqb_spec t (lit "l")) as [->|Hli].
  { eapply over_iff; [|apply over_parse_line; auto]. rewrite Hiff. split; [auto|].
    intros [(ts' & E & _)|[H|(ts' & E & _)]]; [discriminate E|exact H|discriminate E]. }
  destruct (bytes_eqb_spec t (lit "f")) as [->|Hf].
  { eapply over_iff; [|apply over_parse_face; auto]. rewrite Hiff. split; [auto|].
    intros [(ts' & E & _)|[(ts' & E & _)|H]]; [discriminate E|discriminate E|exact H]. }
  eapply over_iff; [|apply over_same]. rewrite Hiff. split; [tauto|].
  intros [(ts' & E & _)|[(ts' & E & _)|(ts' & E & _)]]; congruence.
Qed.

(** * Objects *)

Lemma over_body : forall st ts, small_counts (now_of st) -> length ts < fuel ->
  over (parse_object_body true fuel st) (parse_object_body false fuel st)
    (overflows (base_of st) (now_of st) ts) ts.
Proof.
  intros st ts Hs Hl. unfold parse_object_body. apply over_peek. unfold is_tok, is_nl.
  assert (Hno : forall t ts', t <> lit "p" -> t <> lit "l" -> t <> lit "f" -> ~ overflows (base_of st) (now_of st) (t :: ts')).
  { intros t ts' H1 H2 H3 H. inversion H; subst; congruence. }
  destruct ts as [|t ts]; cbn [hd_error].
  { eapply over_iff; [|apply over_same]. split; [tauto|]. intros H. inversion H. }
  Ltac other Hno := eapply over_iff; [|apply over_same]; split; [tauto|]; apply Hno; (discriminate || assumption).
  destruct (bytes_eqb_spec t (lit "g")) as [->|]; [other Hno|].
  destruct (bytes_eqb_spec t (lit "s")) as [->|]; [other Hno|].
  destruct (bytes_eqb_spec t (lit "usemtl")) as [->|]; [other Hno|].
  destruct (bytes_eqb_spec t (lit "v")) as [->|]; [other Hno|].
  destruct (bytes_eqb_spec t (lit "vt")) as [->|]; [other Hno|].
  destruct (bytes_eqb_spec t (lit "vn")) as [->|]; [other Hno|].
  destruct (bytes_eqb t (lit "p") || bytes_eqb t (lit "l") || bytes_eqb t (lit "f")) eqn:Ee.
  - apply over_bind_same. unfold parse_object_element. cbv zeta. apply over_bind_same.
    apply (over_parse_elements (base_of st) (now_of st)); auto.
  - apply Bool.orb_false_iff in Ee. destruct Ee as [Ee Hf]. apply Bool.orb_false_iff in Ee. destruct Ee as [Hp Hli].
    apply bytes_eqb_neq in Hp, Hli, Hf. eapply over_iff; [|apply over_same]. split; [tauto|]. now apply Hno.
Qed.

Definition body_over (st : object_state) (ts : list bytes) : Prop := overflows (base_of st) (now_of st) ts.

Definition named (ts : list bytes) (name : bytes) (rest : list bytes) : Prop :=
  (exists ts', ts = lit "o" :: name :: nl :: ts' /\ drops_newlines ts' rest) \/
  (hd_error ts <> Some (lit "o") /\ name = [] /\ rest = ts).

Definition object_over (c : counts) (ts : list bytes) : Prop :=
  exists name mid, named ts name mid /\ loops_over body_round body_over (object_state_new (ranges_at c)) mid.

Lemma over_object : forall c ts, room c ts -> length ts < fuel ->
  over (parse_object true fuel (ranges_at c)) (parse_object false fuel (ranges_at c)) (object_over c ts) ts.
Proof.
  intros c ts Hr Hl. rewrite !object_finish.
  pose proof (start_base c) as Eb. pose proof (start_now c) as En.
  eapply over_after; [eapply acc_here; [exact Hl|apply acc_object_name]|].
  intros name mid Hm. assert (Hlen : length mid <= length ts) by (eapply (acc_object_name fuel ts Hl); exact Hm).
  eapply over_iff; [|eapply over_bind with (Q := fun _ _ => False);
    [apply acc_at_statements; [rewrite En; eapply room_less; eauto|lia]|
     apply (over_loop fuel body_round body_ok) with (O := body_over)|]].
  - split; [intros [H|(? & ? & _ & [])]; exact H|auto].
  - exact (body_preserved fuel).
  - intros st ts' Hi Hl'. apply acc_at_body; auto. eapply room_small; eauto.
  - intros st ts' Hi Hl'. apply over_body; auto. eapply room_small; eauto.
  - lia.
  - unfold body_ok. rewrite En. eapply room_less; eauto.
  - intros st rest (ss & _ & ->) l. right. split; [tauto|].
    destruct (drawable_dec (name, ss)) as [Hd|Hd].
    + now rewrite !(finish_ok _ name c ss Hd).
    + now rewrite !(finish_panics _ name c ss Hd).
Qed.

Definition objects_over (a : list object * index_ranges) (ts : list bytes) : Prop :=
  ts <> [] /\ exists c, snd a = ranges_at c /\ object_over c ts.

Lemma over_objects_body : forall a ts, objects_ok a ts -> length ts < fuel ->
  over ((fun '(result, r) =>
    t <- peek ;;
    match t with
    | Some _ =>
        '(o, r') <- parse_object true fuel r ;;
        skip_zero_or_more_newlines fuel ;;;
        ret (Continue (result ++ [o], r'))
    | None => ret (Break result)
    end) a) (objects_body fuel a) (objects_over a ts) ts.
Proof.
  intros [res r] ts (c & Er & Hr & Hn) Hl. cbn [snd] in Er. subst r. unfold objects_body, objects_over. cbn [snd].
  apply over_peek. destruct ts as [|t ts]; cbn [hd_error].
  - eapply over_iff; [|apply over_same]. split; [tauto|]. intros [H _]. congruence.
  - apply over_bind_same. eapply over_iff; [|apply over_object; auto]. split.
    + intros H. split; [discriminate|eauto].
    + intros (_ & c' & E & H). apply ranges_inj in E. now subst.
Qed.

Definition file_over (ts : list bytes) : Prop :=
  exists libs mid, reads_libraries ts libs mid /\
    loops_over objects_round objects_over ([], ranges_at no_counts) mid.

Lemma over_objset : forall ts, room no_counts ts -> length ts < fuel ->
  over (parse_objset true fuel) (parse_objset false fuel) (file_over ts) ts.
Proof.
  intros ts Hr Hl. unfold parse_objset.
  eapply over_after; [eapply acc_here; [exact Hl|apply acc_libraries]|].
  intros libs mid H. pose proof (libraries_shorter _ _ _ H) as Hlen. pose proof (libraries_rest _ _ _ H) as Hh.
  apply over_bind_same. unfold parse_objects.
  eapply over_iff; [|eapply over_after with (Q := fun _ => loops_over objects_round objects_over ([], ranges_at no_counts));
    [apply (acc_here fuel); [lia|apply acc_skip_zero]|]].
  - split.
    + intros (_ & m & Hd & HL). apply drops_none in Hd; auto. now subst.
    + intros HL. exists tt, mid. split; auto. now apply drops_done.
  - intros u m Hd. apply drops_none in Hd; auto. subst m.
    apply (over_loop fuel objects_round objects_ok) with (O := objects_over).
    + exact (objects_preserved fuel).
    + exact (acc_at_objects_body fuel).
    + exact over_objects_body.
    + lia.
    + exists no_counts. repeat split; auto; eapply room_less; eauto.
Qed.
End Debug.

(** * Where a debug build stops *)

Inductive over_statements (base : counts) : counts -> list bytes -> Prop :=
| over_here now ts : overflows base now ts -> over_statements base now ts
| over_blank now ts : over_statements base now ts -> over_statements base now (nl :: ts)
| over_next now ts s mid : reads_statement base now ts s mid ->
    over_statements base (count now s) mid -> over_statements base now ts.

Lemma overflows_not_nl : forall base now ts, ~ overflows base now (nl :: ts).
Proof. intros base now ts H. inversion H. Qed.

Lemma over_undrop : forall base now ts mid, drops_newlines ts mid ->
  over_statements base now mid -> over_statements base now ts.
Proof. intros base now ts mid H. induction H; auto. intros H1. apply over_blank. auto. Qed.

Lemma over_drop : forall base now ts, over_statements base now ts ->
  forall mid, drops_newlines ts mid -> over_statements base now mid.
Proof.
  intros base now ts H. induction H as [now ts H|now ts H IH|now ts s mid Hs H IH]; intros m Hd.
  - inversion Hd; subst; [exfalso; eapply overflows_not_nl; eauto|]. now apply over_here.
  - apply IH. inversion Hd; subst; auto. exfalso. match goal with K : hd_error _ <> _ |- _ => apply K; reflexivity end.
  - inversion Hd; subst; [exfalso; eapply statement_not_nl; eauto|]. eapply over_next; eauto.
Qed.

Lemma rounds_over : forall st ts, loops_over body_round body_over st ts <->
  over_statements (base_of st) (now_of st) ts.
Proof.
  intros st ts. split.
  - intros H. induction H as [st ts H|st ts st' mid H HL IH]; [now apply over_here|].
    destruct H as [(s & H & E)|[(ts' & -> & Hd & E)|(He & -> & E)]]; inversion E; subst.
    + rewrite base_apply, now_apply in IH. eapply over_next; eauto.
    + apply over_blank. eapply over_undrop; eauto.
  - assert (Hgen : forall base now, over_statements base now ts -> forall st, base = base_of st -> now = now_of st ->
      loops_over body_round body_over st ts /\
      forall mid, drops_newlines ts mid -> loops_over body_round body_over st mid).
    { clear st. intros base now H.
      induction H as [now ts H|now ts H IH|now ts s mid Hs H IH]; intros st Eb En; subst.
      - assert (HL : loops_over body_round body_over st ts) by now apply over_now. split; auto.
        intros mid Hd. inversion Hd; subst; auto. exfalso. eapply overflows_not_nl; eauto.
      - destruct (IH st eq_refl eq_refl) as [_ H2]. split.
        + destruct (drops_total ts) as [mid Hd]. eapply over_later; [|apply H2; exact Hd]. right. left. eauto.
        + intros mid Hd. apply H2. inversion Hd; subst; auto. exfalso.
          match goal with K : hd_error _ <> _ |- _ => apply K; reflexivity end.
      - destruct (IH (apply_statement s st)) as [HL _]; [symmetry; apply base_apply|symmetry; apply now_apply|].
        assert (HL' : loops_over body_round body_over st ts) by (eapply over_later; [left; eauto|exact HL]).
        split; auto. intros m Hd. inversion Hd; subst; auto. exfalso. eapply statement_not_nl; eauto. }
    intros H. now destruct (Hgen _ _ H st eq_refl eq_refl).
Qed.

Lemma object_over_iff : forall c ts, object_over c ts <->
  (exists name ts', ts = lit "o" :: name :: nl :: ts' /\ over_statements c c ts') \/
  (hd_error ts <> Some (lit "o") /\ over_statements c c ts).
Proof.
  intros c ts. unfold object_over, named.
  assert (Hr : forall mid, loops_over body_round body_over (object_state_new (ranges_at c)) mid <-> over_statements c c mid).
  { intros mid. rewrite rounds_over, start_base, start_now. reflexivity. }
  split.
  - intros (name & mid & [(ts' & -> & Hd)|(Hn & -> & ->)] & HL); apply Hr in HL.
    + left. exists name, ts'. split; auto. eapply over_undrop; eauto.
    + right. auto.
  - intros [(name & ts' & -> & H)|(Hn & H)].
    + destruct (drops_total ts') as [mid Hd]. exists name, mid. split; [left; eauto|]. apply Hr. eapply over_drop; eauto.
    + exists [], ts. split; [right; auto|]. now apply Hr.
Qed.

Inductive over_objects_at : counts -> list bytes -> Prop :=
| over_object_here c ts : object_over c ts -> over_objects_at c ts
| over_object_next c ts o mid : reads_object c ts o mid -> drawable o ->
    over_objects_at (count_all c (snd o)) mid -> over_objects_at c ts.

Lemma object_over_nonempty : forall c, ~ object_over c [].
Proof.
  intros c H. apply object_over_iff in H. destruct H as [(n & ts & E & _)|[_ H]]; [discriminate|].
  inversion H as [now ts Ho| |now ts s mid Hs]; subst; [inversion Ho|inversion Hs].
Qed.

Lemma rounds_objects_over : forall res c ts,
  loops_over objects_round objects_over (res, ranges_at c) ts <-> over_objects_at c ts.
Proof.
  intros res c ts. split.
  - intros H. remember (res, ranges_at c) as a eqn:Ea. revert res c Ea.
    induction H as [a ts H|a ts a' mid H HL IH]; intros res c ->.
    + destruct H as (_ & c' & E & H). apply ranges_inj in E. subst c'. now apply over_object_here.
    + destruct ts as [|t ts]; cbn in H; [destruct H; discriminate|].
      destruct H as (c' & o & E & H1 & H2 & E'). apply ranges_inj in E. subst c'. inversion E'; subst.
      eapply over_object_next; eauto.
  - intros H. revert res. induction H as [c ts H|c ts o mid H1 H2 H IH]; intros res.
    + apply over_now. split; [|exists c; auto]. intros ->. eapply object_over_nonempty; eauto.
    + destruct ts as [|t ts].
      { destruct H1 as [(ts' & E & _)|(_ & En & Hb)]; [discriminate|].
        inversion Hb; subst; [|match goal with K : reads_statement _ _ _ _ _ |- _ => inversion K end].
        destruct o as [n ss]. cbn in *. subst. apply (IH res). }
      eapply over_later; [|apply IH]. exists c, o. auto.
Qed.

Lemma over_statements_reaches : forall T done name base now ts, over_statements base now ts ->
  forall ss, base = counts_in done [] -> now = counts_in done ss -> reaches T done (Some (name, ss)) ts ->
  overflows_file T.
Proof.
  intros T done name base now ts H.
  induction H as [now ts H|now ts H IH|now ts s mid Hs H IH]; intros ss Eb En Hr.
  - subst. exists done, name, ss, ts. auto.
  - apply (IH ss); auto. now apply reaches_blank.
  - subst. apply (IH (ss ++ [s])); auto.
    + unfold counts_in. now rewrite count_all_app.
    + eapply reaches_statement; eauto.
Qed.

Lemma over_objects_reach : forall T c ts, over_objects_at c ts ->
  forall done, c = counts_in done [] -> (done = [] \/ at_object_end ts) -> reaches T done None ts ->
  overflows_file T.
Proof.
  intros T c ts H. induction H as [c ts H|c ts o mid H1 H2 H IH]; intros done Ec Hd Hr; subst.
  - assert (Hne : ts <> []) by (intros ->; eapply object_over_nonempty; eauto).
    apply object_over_iff in H. destruct H as [(name & ts' & -> & H)|(Hn & H)].
    + eapply (over_statements_reaches T done name _ _ _ H []); auto. now apply reaches_named.
    + assert (He : ~ at_object_end ts).
      { destruct ts as [|t ts]; [congruence|]. cbn. intros ->. apply Hn. reflexivity. }
      destruct Hd as [->|Hd]; [|contradiction].
      eapply (over_statements_reaches T [] [] _ _ _ H []); auto. now apply reaches_unnamed.
  - destruct o as [name ss]. cbn [fst snd] in *.
    assert (He : at_object_end mid) by (eapply object_rest; eauto).
    destruct H1 as [(ts' & -> & Hb)|(Hn & En & Hb)]; cbn [fst snd] in *.
    + apply (IH (done ++ [(name, ss)])); auto.
      * unfold counts_in, count_objects. rewrite fold_left_app. reflexivity.
      * apply reaches_end; auto. apply (body_reaches T done name ts' ss mid _ _ Hb []); auto. now apply reaches_named.
    + subst name. destruct ts as [|t ts].
      { inversion Hb; subst; [|match goal with K : reads_statement _ _ _ _ _ |- _ => inversion K end].
        apply (IH done); auto. }
      assert (Hne : ~ at_object_end (t :: ts)).
      { cbn. intros ->. apply Hn. reflexivity. }
      destruct Hd as [->|Hd]; [|contradiction].
      apply (IH ([] ++ [([], ss)])); auto.
      apply reaches_end; auto. apply (body_reaches T [] [] (t :: ts) ss mid _ _ Hb []); auto. now apply reaches_unnamed.
Qed.

Lemma over_start : forall c ts, ~ at_object_end ts -> over_statements c c ts -> over_objects_at c ts.
Proof.
  intros c ts Hn H. apply over_object_here. apply object_over_iff. right. split; auto.
  destruct ts as [|t ts]; [discriminate|]. cbn. intros E. inversion E; subst. apply Hn. reflexivity.
Qed.

Lemma reaches_over : forall T done cur rest, reaches T done cur rest ->
  match cur with
  | None => over_objects_at (counts_in done []) rest -> file_over T
  | Some (name, ss) =>
      (over_statements (counts_in done []) (counts_in done ss) rest -> file_over T) /\
      (forall ss' rest', reads_body (counts_in done []) (counts_in done ss) rest ss' rest' ->
         drawable (name, ss ++ ss') -> over_objects_at (counts_in (done ++ [(name, ss ++ ss')]) []) rest' -> file_over T)
  end.
Proof.
  intros T done cur rest H.
  assert (Ec : forall done o, counts_in (done ++ [o]) [] = count_all (counts_in done []) (snd o)).
  { intros d o. unfold counts_in, count_objects. rewrite fold_left_app. reflexivity. }
  induction H as [libs rest H|rest H IH Hn|done name rest H IH|done [name ss] rest H IH|done name ss s mid rest H IH Hs|done [name ss] rest H IH He Hd].
  - intros HL. exists libs, rest. split; auto. now apply rounds_objects_over.
  - split.
    + intros Ho. apply IH. now apply over_start.
    + intros ss' rest' Hb Hdr Ho. apply IH. eapply (over_object_next _ _ ([], ss')); eauto.
      right. split; [|auto]. destruct rest as [|t rest]; [discriminate|]. cbn. intros E. inversion E; subst. apply Hn. reflexivity.
  - split.
    + intros Ho. apply IH. apply over_object_here. apply object_over_iff. left. eauto.
    + intros ss' rest' Hb Hdr Ho. apply IH. rewrite Ec in Ho. eapply (over_object_next _ _ (name, ss')); eauto.
      left. exists rest. auto.
  - destruct IH as [H1 H2]. split.
    + intros Ho. apply H1. now apply over_blank.
    + intros ss' rest' Hb. apply H2. now apply body_blank.
  - destruct IH as [H1 H2].
    assert (E : counts_in done (ss ++ [s]) = count (counts_in done ss) s) by (unfold counts_in; apply count_all_app).
    rewrite E. split.
    + intros Ho. apply H1. eapply over_next; eauto.
    + intros ss' rest' Hb. rewrite <- app_assoc. apply H2. eapply body_statement; eauto.
  - destruct IH as [H1 H2]. intros Ho. apply (H2 [] rest); [now apply body_end| |]; rewrite app_nil_r; auto.
Qed.

Lemma file_over_iff : forall T, file_over T <-> overflows_file T.
Proof.
  intros T. split.
  - intros (libs & mid & H & HL). apply rounds_objects_over in HL.
    eapply (over_objects_reach T no_counts mid HL []); auto. eapply reaches_start; eauto.
  - intros (done & n & ss & ts & H & Ho). apply reaches_over in H. destruct H as [H _]. apply H. now apply over_here.
Qed.

(** * Whole inputs *)

Lemma parse_debug : forall input, fits input ->
  (overflows_file (lex input) /\ ObjModel.parse true input = Panic PanicOverflow) \/
  (~ overflows_file (lex input) /\ ObjModel.parse true input = ObjModel.parse false input).
Proof.
  intros input Hf. rewrite !parse_lex. unfold parse_tokens.
  pose proof (lex_fuel input) as Hl. fold (ObjModel.fuel_for input) in Hl.
  destruct (over_objset (ObjModel.fuel_for input) (lex input) (fits_room _ Hf) Hl 1) as [[H [p E]]|[H E]];
    rewrite file_over_iff in H.
  - left. rewrite E. auto.
  - right. rewrite E. auto.
Qed.
