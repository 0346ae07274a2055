(** More properties of parsed texts: both build modes, doubled newlines,
    appended objects, negative indices, names, sizes. *)
From Verif Require Import ObjModel ObjErrorSpec ObjView LexerProofs RelProofs SourceProofs RunProofs ConsumeProofs TotalProofs ObjAccept ObjFile ObjTop
  ObjMeaning ObjReach ObjUnique ObjExtend ObjFacts ObjMore ObjDebug.
Local Open Scope list_scope.

(** * Debug builds *)

Lemma debug_overflow_iff : forall input, fits input ->
  parse true input = Panic PanicOverflow <-> exists ts, tokenizes input ts /\ overflows_file ts.
Proof.
  intros input Hf. split.
  - intros H. destruct (parse_debug input Hf) as [[Ho _]|[Hn E]].
    + exists (lex input). split; auto. now apply tokenizes_iff.
    + rewrite E in H. apply panic_place in H; auto. destruct H as [H _]. discriminate H.
  - intros (ts & Ht & Ho). apply tokenizes_iff in Ht. subst ts.
    destruct (parse_debug input Hf) as [[_ E]|[Hn _]]; auto. contradiction.
Qed.

Lemma debug_otherwise : forall input, fits input -> parse true input <> Panic PanicOverflow ->
  parse true input = parse false input.
Proof. intros input Hf H. destruct (parse_debug input Hf) as [[_ E]|[_ E]]; congruence. Qed.

Lemma debug_same : forall input r, fits input -> r <> Panic PanicOverflow ->
  parse true input = r <-> parse false input = r /\ forall ts, tokenizes input ts -> ~ overflows_file ts.
Proof.
  intros input r Hf Hr. destruct (parse_debug input Hf) as [[Ho E]|[Hn E]].
  - split; [congruence|]. intros [_ H]. exfalso. eapply H; [|exact Ho]. apply lex_tokenizes.
  - rewrite E. split; [|now intros [H _]]. intros H. split; auto. intros ts Ht. apply tokenizes_iff in Ht. now subst.
Qed.

Lemma debug_ok_iff : forall input set, fits input ->
  parse true input = Ok set <->
  (exists f, says input f /\ Forall drawable (file_objects f) /\ set = file_means f) /\
  forall ts, tokenizes input ts -> ~ overflows_file ts.
Proof. intros input set Hf. rewrite debug_same by (auto; discriminate). now rewrite parse_says_iff. Qed.

Lemma debug_err_iff : forall input e, fits input ->
  parse true input = Err e <->
  (exists x y z tx ty tz, input = x ++ y ++ z /\
    tokenizes x tx /\ tokenizes y ty /\ tokenizes z tz /\ tokenizes input (tx ++ ty ++ tz) /\
    fails_at (tx ++ ty ++ tz) (ty ++ tz) (err_kind e, err_message e) tz /\
    err_line_number e = line_after (x ++ y)) /\
  forall ts, tokenizes input ts -> ~ overflows_file ts.
Proof. intros input e Hf. rewrite debug_same by (auto; discriminate). now rewrite error_iff. Qed.

Lemma debug_panic_iff : forall input x, fits input ->
  parse true input = Panic x <->
  (x = PanicOverflow /\ exists ts, tokenizes input ts /\ overflows_file ts) \/
  (x = PanicIndex /\
   (exists ts done o rest, tokenizes input ts /\ reaches ts done (Some o) rest /\ at_object_end rest /\ ~ drawable o) /\
   forall ts, tokenizes input ts -> ~ overflows_file ts).
Proof.
  intros input x Hf. destruct x.
  - rewrite debug_same by (auto; discriminate). rewrite panic_place by auto. intuition discriminate.
  - rewrite debug_overflow_iff by auto. intuition discriminate.
  - rewrite debug_same by (auto; discriminate). rewrite panic_place by auto. intuition discriminate.
Qed.

Lemma no_assert : forall dbg input, fits input -> parse dbg input <> Panic PanicAssert.
Proof.
  intros dbg input Hf H. assert (K : parse false input = Panic PanicAssert).
  { destruct dbg; auto. destruct (parse_debug input Hf) as [[_ E]|[_ E]]; congruence. }
  apply panic_place in K; auto. destruct K as [K _]. discriminate K.
Qed.

(** * A newline twice *)

Section Undouble.
Context (a b : list bytes) (f : obj_file) (Hf : reads_file (a ++ nl :: b) f []).
Let T := a ++ nl :: b.
Let T2 := a ++ nl :: nl :: b.

Definition undoubles (done : list (bytes * list statement)) (cur : option (bytes * list statement)) (rest : list bytes) : Prop :=
  (exists a', rest = a' ++ nl :: nl :: b /\ reaches T done cur (a' ++ nl :: b)) \/
  (cur <> None /\ exists r, rest = nl :: r /\ reaches T done cur r) \/
  reaches T done cur rest.

Lemma reaches_undouble : forall done cur rest, reaches T2 done cur rest -> undoubles done cur rest.
Proof.
  intros done cur rest H. unfold undoubles.
  induction H as [libs rest H|rest H IH Hn|done name rest H IH|done o rest H IH|done name ss s mid rest H IH Hs|done o rest H IH He Hd].
  - assert (K : exists libs' mid', reads_libraries T libs' mid') by (inversion Hf; subst; eauto).
    destruct K as (libs' & mid' & K).
    destruct (libraries_double b _ _ _ K a eq_refl) as [(a' & -> & K')|K'].
    + destruct (libraries_det _ _ _ H _ _ K') as [_ ->]. left. exists a'. split; auto. eapply reaches_start; eauto.
    + destruct (libraries_det _ _ _ H _ _ K') as [_ ->]. right. right. eapply reaches_start; eauto.
  - destruct IH as [(a' & -> & K)|[(C & _)|K]]; [|congruence|right; right; now apply reaches_unnamed].
    left. exists a'. split; auto. apply reaches_unnamed; auto. intros E. apply Hn. destruct a'; exact E.
  - destruct IH as [(a' & E & K)|[(C & _)|K]]; [|congruence|right; right; now apply reaches_named].
    destruct a' as [|t1 a']; cbn in E; [inversion E|]. inversion E as [[E1 E2]]; subst t1. clear E.
    destruct a' as [|t2 a']; cbn in E2; inversion E2 as [[E3 E4]]; subst.
    + pose proof (reaches_file _ _ _ _ K f Hf) as (more & _ & [Kf|(_ & Kn & _)]); [|exfalso; apply Kn; reflexivity].
      cbn in Kf. inversion Kf; subst. right. left. split; [discriminate|]. eexists. split; [reflexivity|].
      now apply reaches_named.
    + destruct a' as [|t3 a']; cbn in *; inversion E4; subst.
      * right. left. split; [discriminate|]. exists b. split; auto. now apply reaches_named.
      * left. exists a'. split; auto. now apply reaches_named.
  - destruct IH as [(a' & E & K)|[(C & r & E & K)|K]]; [|inversion E; subst; auto|right; right; now apply reaches_blank].
    destruct a' as [|t a']; cbn in *; inversion E; subst.
    + right. left. split; [discriminate|]. exists b. split; auto. now apply reaches_blank.
    + left. exists a'. split; auto. now apply reaches_blank.
  - destruct IH as [(a' & -> & K)|[(C & r & -> & K)|K]].
    + pose proof (reaches_file _ _ _ _ K f Hf) as (ss' & mid' & more & _ & Hb & _).
      assert (Hst : exists s0 rest0, reads_statement (counts_in done []) (counts_in done ss) (a' ++ nl :: b) s0 rest0).
      { inversion Hb as [now ts0 He|now ts0 ss0 rest0 Hb0|now ts0 s0 mid0 ss0 rest0 Hs0 Hb0]; subst.
        - exfalso. eapply statement_end; [exact Hs|]. destruct a'; exact He.
        - exfalso. match goal with E1 : nl :: _ = _ |- _ => destruct a' as [|t a']; cbn in E1; inversion E1; subst end; eapply statement_not_nl; exact Hs.
        - eauto. }
      destruct Hst as (s0 & rest0 & Hst).
      destruct (statement_double b _ _ _ _ _ Hst) as [(a'' & -> & K')|(-> & K')];
        destruct (statement_det _ _ _ _ _ _ _ Hs K') as [-> ->].
      * left. exists a''. split; auto. eapply reaches_statement; eauto.
      * right. left. split; [discriminate|]. exists b. split; auto. eapply reaches_statement; eauto.
    + exfalso. eapply statement_not_nl; eauto.
    + right. right. eapply reaches_statement; eauto.
  - destruct IH as [(a' & -> & K)|[(C & r & -> & K)|K]].
    + left. exists a'. split; auto. apply reaches_end; auto. destruct a'; exact He.
    + discriminate He.
    + right. right. apply reaches_end; auto.
Qed.

Lemma low_ref_not_nl : forall base now, ~ ref_too_low base now nl.
Proof.
  assert (Hp : forall ps p, parts_of nl ps -> In p ps -> p = nl \/ False).
  { intros ps p (Hn & HF & E) Hin. destruct ps as [|q [|q2 ps]]; [destruct Hin| |].
    - destruct Hin as [<-|[]]. left. now rewrite E.
    - assert (K : In "/"%char nl) by (rewrite E; cbn; apply in_or_app; right; now left). vm_compute in K. intuition discriminate. }
  intros base now H. destruct H as [p ps Hps Hl|p q ps Hps Hg Hl|p q r ps Hps Hg Hg2 Hl];
    [destruct (Hp _ p Hps) as [->|[]]|destruct (Hp _ q Hps) as [->|[]]|destruct (Hp _ r Hps) as [->|[]]];
    try (cbn; auto; fail); eapply low_not_nl; eauto.
Qed.

Lemma forall2_not_nl : forall A (P : bytes -> A -> Prop) toks xs, (forall x, ~ P nl x) -> Forall2 P toks xs -> ~ In nl toks.
Proof.
  intros A P toks xs Hn H. induction H as [|t x toks xs Ht H IH]; [auto|]. intros [->|K]; [eapply Hn; eauto|auto].
Qed.

Lemma overflows_undouble : forall base now a', overflows base now (a' ++ nl :: nl :: b) -> overflows base now (a' ++ nl :: b).
Proof.
  assert (Hsplit : forall k toks t rest a', k <> nl -> ~ In nl toks -> t <> nl -> k :: toks ++ t :: rest = a' ++ nl :: nl :: b ->
    exists a'', a' ++ nl :: b = k :: toks ++ t :: a'' ++ nl :: b).
  { intros k toks t rest a' Hk Hn Ht E.
    destruct (split_nl (nl :: b) (k :: toks ++ [t]) rest a') as (a'' & -> & _).
    - cbn. rewrite in_app_iff. cbn. intuition.
    - cbn. rewrite <- app_assoc. exact E.
    - exists a''. cbn. now rewrite <- !app_assoc. }
  intros base now a' H. inversion H as [toks ks t rest HF Hl E|toks rs t rest HF Hl E|toks rs t rest HF Hl E].
  - destruct (Hsplit (lit "p") toks t rest a') as (a'' & ->); [discriminate| | |exact E|].
    + eapply forall2_not_nl; [|eauto]. intros k [K _]. eapply nl_not_number; eauto.
    + intros ->. eapply low_not_nl; eauto.
    + eapply overflows_p; eauto.
  - destruct (Hsplit (lit "l") toks t rest a') as (a'' & ->); [discriminate| | |exact E|].
    + eapply forall2_not_nl; [|eauto]. apply nl_not_ref.
    + intros ->. eapply low_ref_not_nl; eauto.
    + eapply overflows_l; eauto.
  - destruct (Hsplit (lit "f") toks t rest a') as (a'' & ->); [discriminate| | |exact E|].
    + eapply forall2_not_nl; [|eauto]. apply nl_not_ref.
    + intros ->. eapply low_ref_not_nl; eauto.
    + eapply overflows_f; eauto.
Qed.

Lemma overflow_undouble : overflows_file T2 -> overflows_file T.
Proof.
  intros (done & n & ss & ts & Hr & Ho).
  destruct (reaches_undouble _ _ _ Hr) as [(a' & -> & K)|[(_ & r & -> & K)|K]].
  - exists done, n, ss, (a' ++ nl :: b). split; auto. now apply overflows_undouble.
  - exfalso. eapply overflows_not_nl; eauto.
  - exists done, n, ss, ts. auto.
Qed.
End Undouble.

Lemma blank_line : forall dbg x y set, fits (x ++ LF :: LF :: y) ->
  parse dbg (x ++ LF :: y) = Ok set -> parse dbg (x ++ LF :: LF :: y) = Ok set.
Proof.
  intros dbg x y set Hf H.
  assert (Hf' : fits (x ++ LF :: y)) by (unfold fits in *; rewrite app_length in *; cbn in *; lia).
  destruct (parsed_said _ _ _ Hf' H) as (f & (ts & Ht & Hr) & Hd & ->).
  assert (Ht1 : tokenizes (x ++ LF :: y) (lex x ++ nl :: lex y)) by (apply tokenizes_newline; now apply tokenizes_iff).
  assert (Ht2 : tokenizes (x ++ LF :: LF :: y) (lex x ++ nl :: nl :: lex y)).
  { apply tokenizes_newline; [now apply tokenizes_iff|]. apply (tokenizes_newline [] []); [constructor|now apply tokenizes_iff]. }
  assert (E : ts = lex x ++ nl :: lex y) by (apply tokenizes_iff in Ht, Ht1; congruence). subst ts.
  assert (K : parse false (x ++ LF :: LF :: y) = Ok (file_means f)).
  { apply parse_says_iff; auto. exists f. split; auto. exists (lex x ++ nl :: nl :: lex y). split; auto. now apply file_double. }
  destruct dbg; auto.
  destruct (parse_debug _ Hf) as [[Ho _]|[_ E]]; [exfalso|congruence].
  apply tokenizes_iff in Ht2. rewrite <- Ht2 in Ho. apply (overflow_undouble _ _ f Hr) in Ho.
  assert (C : parse true (x ++ LF :: y) = Panic PanicOverflow) by (apply debug_overflow_iff; eauto). congruence.
Qed.

(** * More objects *)

Lemma objects_of_app : forall os os' c, objects_of c (os ++ os') = objects_of c os ++ objects_of (count_objects c os) os'.
Proof. induction os as [|[n ss] os IH]; intros os' c; [reflexivity|]. cbn. now rewrite IH. Qed.

Lemma appended : forall dbg x y set set', fits (x ++ LF :: y) ->
  parse dbg x = Ok set -> (exists rest, tokenizes y (lit "o" :: rest)) -> parse dbg (x ++ LF :: y) = Ok set' ->
  material_libraries set' = material_libraries set /\ exists more, objects set' = objects set ++ more.
Proof.
  intros dbg x y set set' Hf H1 (rest & Hy) H2.
  assert (Hf' : fits x) by (unfold fits in *; rewrite app_length in *; cbn in *; lia).
  destruct (parsed_said _ _ _ Hf' H1) as (f & (ts & Ht & Hr) & Hd & ->).
  destruct (parsed_said _ _ _ Hf H2) as (f' & (ts' & Ht' & Hr') & Hd' & ->).
  pose proof (tokenizes_newline _ _ _ _ Ht Hy) as K. apply tokenizes_iff in K, Ht'. subst ts'. rewrite <- K in Hr'.
  destruct (file_prefix _ _ _ _ _ (file_append _ _ _ Hr) eq_refl Hr') as [El (more & Eo)].
  unfold file_means. cbn [material_libraries objects]. split; auto. rewrite Eo, objects_of_app. eauto.
Qed.

(** * Errors *)

Lemma fails_err : forall input ts c rest, fits input -> tokenizes input ts -> fails_file ts c rest ->
  exists e, parse false input = Err e /\ err_kind e = fst c /\ err_message e = snd c.
Proof.
  intros input ts c rest Hf Ht H. apply tokenizes_iff in Ht. subst ts.
  destruct (run_bad input (Fails (fst c) (snd c)) rest Hf) as [_ K].
  destruct K as [l E]; [left; exists c; auto|]. rewrite parse_lex. unfold parse_tokens. rewrite E. cbn. eauto.
Qed.

Lemma bad_here_err : forall input ts done n ss here c rest, fits input -> tokenizes input ts ->
  reaches ts done (Some (n, ss)) here -> fails_statement (counts_in done []) (counts_in done ss) here c rest ->
  exists e, parse false input = Err e /\ err_kind e = fst c /\ err_message e = snd c.
Proof.
  intros input ts done n ss here c rest Hf Ht Hr Hs. eapply fails_err; eauto. apply fails_file_reaches. left. eauto 6.
Qed.

(** * Indices that are not positive *)

Definition not_positive (t : bytes) : Prop := exists z, RustStd.parse_isize t = Some z /\ (z <= 0)%Z.

Lemma not_positive_bad : forall base now t, not_positive t ->
  exists msg, bad_number base now t (VTNIndexOutOfRange, msg).
Proof.
  intros base now t (z & E & Hz). eexists. apply number_out; [exact E|]. intros k -> [H1 H2]. lia.
Qed.

(** A reference with such a number in it. *)
Definition ref_not_positive (t : bytes) : Prop := exists ps p, parts_of t ps /\ In p ps /\ not_positive p.

Lemma not_positive_token : forall t k, not_positive t -> number_token t k -> k = 0.
Proof. intros t k (z & E & Hz) H. unfold number_token in H. rewrite H in E. inversion E. lia. Qed.

Lemma not_positive_some : forall p, not_positive p -> p <> [].
Proof. intros p (z & E & _) ->. vm_compute in E. discriminate. Qed.

Lemma not_positive_ref : forall base now t r, ref_not_positive t -> ~ valid_ref base now t r.
Proof.
  intros base now t r (ps & p & Hps & Hin & Hp) [Ht (Hv & Hvt & Hvn)].
  apply parts_split in Hps. apply ref_token_split in Ht. rewrite <- Hps in Ht.
  assert (Hn : forall k lo hi, number_token p k -> in_scope lo hi k -> False).
  { intros k lo hi H [H1 H2]. apply (not_positive_token _ _ Hp) in H. lia. }
  assert (Hpart : forall k lo hi, part_token p k -> part_in_scope lo hi k -> False).
  { intros k lo hi H Hs. inversion H; subst; [now apply not_positive_some in Hp|]. eapply Hn; eauto. }
  destruct ps as [|a [|b [|c [|d ps]]]]; [destruct Ht| | | |destruct Ht].
  - destruct Ht as (v & Ha & ->). destruct Hin as [->|[]]. eapply Hn; eauto.
  - destruct Ht as (v & vt & Ha & Hb & ->). destruct Hin as [->|[->|[]]]; [eapply Hn|eapply Hpart]; eauto.
  - destruct Ht as (v & vt & vn & Ha & Hb & Hc & ->). destruct Hin as [->|[->|[->|[]]]]; [eapply Hn|eapply Hpart|eapply Hpart]; eauto.
Qed.

Section Nonpositive.
Context (input : bytes) (ts : list bytes) (done : list (bytes * list statement)) (n : bytes) (ss : list statement).
Context (toks : list bytes) (t : bytes) (rest : list bytes).
Context (Hfits : fits input) (Ht : tokenizes input ts).

Lemma nonpositive_point : forall ks,
  reaches ts done (Some (n, ss)) (lit "p" :: toks ++ t :: rest) ->
  Forall2 (point_token (counts_in done []) (counts_in done ss)) toks ks -> not_positive t ->
  exists e, parse false input = Err e /\ err_kind e = VTNIndexOutOfRange.
Proof.
  intros ks Hr HF Hp. destruct (not_positive_bad (n_v (counts_in done [])) (n_v (counts_in done ss)) t Hp) as [msg Hb].
  destruct (bad_here_err input ts done n ss _ (VTNIndexOutOfRange, msg) rest Hfits Ht Hr) as (e & E & K & _).
  - eapply fails_p; eauto. right. intros ->. destruct Hp as (z & E & _). vm_compute in E. discriminate.
  - eauto.
Qed.

Lemma nonpositive_line : forall rs,
  reaches ts done (Some (n, ss)) (lit "l" :: toks ++ t :: rest) ->
  Forall2 (valid_ref (counts_in done []) (counts_in done ss)) toks rs -> length rs < 2 -> ref_not_positive t ->
  exists e, parse false input = Err e.
Proof.
  intros rs Hr HF Hl Hp. destruct (ref_dec (counts_in done []) (counts_in done ss) t) as [[r Hv]|[c Hb]].
  - exfalso. eapply not_positive_ref; eauto.
  - destruct (bad_here_err input ts done n ss _ c rest Hfits Ht Hr) as (e & E & _); [eapply fails_l_ref; eauto|eauto].
Qed.

Lemma refs_prefix : forall base now toks rs stop, Forall2 (valid_ref base now) toks rs ->
  match stop with [] => True | t :: _ => forall r, ~ valid_ref base now t r end ->
  reads_refs base now (toks ++ stop) rs (tl stop).
Proof.
  intros base now tk rs stop H Hs. induction H as [|x r tk rs Hx H IH]; cbn.
  - destruct stop; [apply refs_eof|now apply refs_stop].
  - now apply refs_more.
Qed.

Lemma nonpositive_face : forall rs,
  reaches ts done (Some (n, ss)) (lit "f" :: toks ++ t :: rest) ->
  Forall2 (valid_ref (counts_in done []) (counts_in done ss)) toks rs -> length rs < 3 -> ref_not_positive t ->
  exists e, parse false input = Err e /\ err_kind e = EveryFaceElementMustHaveAtLeastThreeVertices.
Proof.
  intros rs Hr HF Hl Hp.
  destruct (bad_here_err input ts done n ss _ (EveryFaceElementMustHaveAtLeastThreeVertices, msg_few) rest Hfits Ht Hr) as (e & E & K & _).
  - eapply fails_f_few; [|exact Hl]. apply (refs_prefix _ _ toks rs (t :: rest) HF). intros r. now apply not_positive_ref.
  - eauto.
Qed.
End Nonpositive.

(** * References that are kept *)

Lemma kept : forall dbg input ts set done n ss k toks rs stop s, fits input -> tokenizes input ts -> parse dbg input = Ok set ->
  reaches ts done (Some (n, ss)) (k :: toks ++ stop) ->
  (k = lit "f" /\ s = SFace rs) \/ (k = lit "l" /\ s = SLine rs) ->
  Forall2 (valid_ref (counts_in done []) (counts_in done ss)) toks rs ->
  match stop with [] => True | t :: _ => forall r, ~ valid_ref (counts_in done []) (counts_in done ss) t r end ->
  exists ob front back, nth_error (objects set) (length done) = Some ob /\
    element_set ob = front ++ elements_of (counts_in done []) s ++ back /\
    length front = length (flat_map written ss).
Proof.
  intros dbg input ts set done n ss k toks rs stop s Hf Ht Hok Hr Hk HF Hs.
  destruct (parsed_said _ _ _ Hf Hok) as (f & (ts' & Ht' & Hrf) & Hd & E).
  assert (ts' = ts) by (apply tokenizes_iff in Ht, Ht'; congruence). subst ts'.
  pose proof (reaches_file _ _ _ _ Hr f Hrf) as (ss' & mid & more & Eo & Hb & _).
  pose proof (refs_prefix _ _ _ _ _ HF Hs) as Hrefs.
  assert (Ess : exists after, ss' = s :: after).
  { inversion Hb as [now ts0 He|now ts0 ss0 rest0 Hb0|now ts0 s0 mid0 ss0 rest0 Hs0 Hb0]; subst.
    - destruct Hk as [[-> _]|[-> _]]; discriminate He.
    - destruct Hk as [[? _]|[? _]]; discriminate.
    - exists ss0. f_equal. destruct Hk as [[-> ->]|[-> ->]]; inversion Hs0; subst; f_equal;
        match goal with K : reads_refs _ _ _ ?r1 _, K' : reads_refs _ _ _ ?r2 _ |- ?r1 = ?r2 =>
          now destruct (refs_det _ _ _ _ _ K _ _ K') end. }
  destruct Ess as (after & ->).
  assert (Hi : nth_error (file_objects f) (length done) = Some (n, ss ++ s :: after)).
  { rewrite Eo, nth_error_app2 by lia. now rewrite Nat.sub_diag. }
  assert (Eb : counts_in done [] = count_objects no_counts (firstn (length done) (file_objects f))).
  { unfold counts_in. cbn. f_equal. rewrite Eo, firstn_app, Nat.sub_diag, firstn_all. cbn. now rewrite app_nil_r. }
  exists (object_of (counts_in done []) n (ss ++ s :: after)), (all_elements (counts_in done []) ss), (all_elements (counts_in done []) after).
  split; [|split].
  - subst set. cbn [file_means objects]. rewrite (objects_of_nth _ _ _ _ Hi). cbn [fst snd]. now rewrite Eb.
  - cbn [object_of element_set]. unfold all_elements. now rewrite flat_map_app.
  - apply length_all_written.
Qed.

(** * A second call *)

Lemma second_call : forall dbg input set p, fits input ->
  parse_objset dbg (fuel_for input) (parser_new input) = (Ok set, p) ->
  fst (parse_objset dbg (fuel_for input) p) = Ok (mkObjectSet [] []).
Proof.
  intros dbg input set p Hf H.
  destruct (parse_objset_lex dbg (fuel_for input) _ _ (related_new input)) as [E Hrel].
  rewrite H in E, Hrel. cbn [fst snd] in E, Hrel.
  pose proof (lex_fuel input) as Hl. fold (fuel_for input) in Hl.
  destruct (acc_at_objset (fuel_for input) (lex input) (fits_room _ Hf) Hl) as [Hacc _].
  assert (K : exists l, parse_objset dbg (fuel_for input) (list_parser 1 (lex input)) = (Ok set, list_parser l [])).
  { destruct dbg.
    - destruct (over_objset (fuel_for input) (lex input) (fits_room _ Hf) Hl 1) as [[_ [q C]]|[_ C]].
      + rewrite C in E. discriminate.
      + rewrite C in E |- *. destruct (run_cases false _ _ Hl) as (pre & rest & _ & [(set' & C')|(b & C')]); rewrite C' in E |- *.
        * cbn in E. inversion E; subst set'. destruct (Hacc 1 set rest) as [H1 _]. destruct H1 as (-> & _); [eexists; exact C'|]. eauto.
        * destruct b; discriminate.
    - destruct (run_cases false _ _ Hl) as (pre & rest & _ & [(set' & C')|(b & C')]); rewrite C' in E |- *.
      + cbn in E. inversion E; subst set'. destruct (Hacc 1 set rest) as [H1 _]. destruct H1 as (-> & _); [eexists; exact C'|]. eauto.
      + destruct b; discriminate. }
  destruct K as [l K]. rewrite K in Hrel. cbn [snd] in Hrel.
  destruct (parse_objset_lex dbg (fuel_for input) _ _ Hrel) as [E2 _]. rewrite E2. reflexivity.
Qed.

(** * Names *)

Lemma declared_in : forall A (decl : statement -> list A) d ss x, In x (declared decl d ss) -> x = d \/ In x (flat_map decl ss).
Proof.
  intros A decl d ss x. induction ss as [|s ss IH]; cbn; [auto|].
  destruct (is_element s).
  - intros [->|H]; auto. right. apply in_or_app. auto.
  - destruct (decl s) as [|y ys] eqn:E.
    + intros H. destruct (IH H); auto.
    + intros H. right. exact H.
Qed.

Lemma segments_material : forall base ss m i n g, In g (segments m base ss i n) ->
  material_name g = m \/ exists x, material_name g = Some x /\ In (SUse x) ss.
Proof.
  intros base ss. induction ss as [|s ss IH]; intros m i n g H.
  - destruct H as [<-|[]]. now left.
  - assert (Hd : (exists x, s = SUse x) \/ segments m base (s :: ss) i n = segments m base ss i (n + length (elements_of base s))).
    { destruct s; eauto. }
    destruct Hd as [(x & ->)|E].
    + destruct H as [<-|H]; [now left|]. right. destruct (IH _ _ _ _ H) as [->|(y & E & Hy)]; [exists x|exists y]; cbn; auto.
    + rewrite E in H. destruct (IH _ _ _ _ H) as [K|(y & K & Hy)]; [now left|right; exists y; cbn; auto].
Qed.

Lemma drop_empty_incl : forall gs g, In g (drop_empty gs) -> In g gs.
Proof.
  induction gs as [|a gs IH]; intros g H; [destruct H|]. destruct gs as [|b gs]; [exact H|].
  change (In g (match shapes a with [] => drop_empty (b :: gs) | _ => a :: drop_empty (b :: gs) end)) in H.
  destruct (shapes a); [right; now apply IH|]. destruct H as [->|H]; [now left|right; now apply IH].
Qed.

Section Names.
Context (dbg : bool) (input : bytes) (set : object_set).
Context (Hfits : fits input) (Hok : parse dbg input = Ok set).

Lemma library_names : forall t, In t (material_libraries set) -> proper_name input t /\ t <> nl.
Proof.
  destruct (parsed_said _ _ _ Hfits Hok) as (f & (ts & Ht & Hr) & _ & ->).
  destruct (file_names _ _ Hr) as (H1 & H2 & _). intros t Hin. cbn in Hin. split.
  - eapply token_name; eauto.
  - intros ->. auto.
Qed.

Lemma object_names : forall i ob, nth_error (objects set) i = Some ob ->
  proper_name input (name ob) \/ (i = 0 /\ name ob = []).
Proof.
  destruct (parsed_said _ _ _ Hfits Hok) as (f & (ts & Ht & Hr) & _ & E).
  destruct (file_names _ _ Hr) as (_ & _ & H). intros i ob Hob.
  assert (Hs : says input f) by (exists ts; auto).
  pose proof (parsed_names _ _ _ Hfits Hok f Hs) as En.
  assert (K : nth_error (map name (objects set)) i = Some (name ob)) by now apply map_nth_error.
  rewrite En in K. destruct (nth_error (file_objects f) i) as [[n ss]|] eqn:Ei.
  - rewrite (map_nth_error _ _ _ Ei) in K. inversion K as [E']. cbn in E'. rewrite <- E'.
    destruct (H i n ss Ei) as ([Hin|[-> ->]] & _); [left; eapply token_name; eauto|right; auto].
  - apply nth_error_None in Ei. assert (nth_error (map fst (file_objects f)) i = None) by (apply nth_error_None; now rewrite map_length).
    congruence.
Qed.

Lemma statements_of : forall ob, In ob (objects set) -> exists i n ss base ts f,
  tokenizes input ts /\ reads_file ts f [] /\ nth_error (file_objects f) i = Some (n, ss) /\ ob = object_of base n ss.
Proof.
  destruct (parsed_said _ _ _ Hfits Hok) as (f & (ts & Ht & Hr) & _ & E). intros ob Hin.
  apply In_nth_error in Hin. destruct Hin as [i Hob].
  destruct (nth_error (file_objects f) i) as [[n ss]|] eqn:Ei.
  - exists i, n, ss, (base_of f i), ts, f. repeat split; auto.
    eapply (nth_is _ _ _ Hfits Hok); eauto. exists ts. auto.
  - apply nth_error_None in Ei. assert (Hlt : i < length (objects set)) by (apply nth_error_Some; congruence).
    rewrite E in Hlt. cbn in Hlt. rewrite objects_of_length in Hlt. lia.
Qed.

Lemma group_names : forall ob t, In ob (objects set) -> In t (group_set ob) ->
  (proper_name input t \/ t = lit "default") /\ t <> nl.
Proof.
  intros ob t Hob Hin. destruct (statements_of ob Hob) as (i & n & ss & base & ts & f & Ht & Hr & Hi & ->).
  destruct (file_names _ _ Hr) as (_ & _ & H). destruct (H i n ss Hi) as (_ & H1 & H2).
  apply declared_in in Hin. destruct Hin as [->|Hin]; [split; [auto|discriminate]|].
  split; [left|intros ->; auto]. eapply token_name; eauto. apply H1.
  apply in_flat_map in Hin. destruct Hin as (s & Hs & Hn). apply in_flat_map. exists s. split; auto. destruct s; cbn in *; try tauto.
Qed.

Lemma material_names : forall ob g m, In ob (objects set) -> In g (geometry_set ob) -> material_name g = Some m ->
  proper_name input m.
Proof.
  intros ob g m Hob Hin E. destruct (statements_of ob Hob) as (i & n & ss & base & ts & f & Ht & Hr & Hi & ->).
  destruct (file_names _ _ Hr) as (_ & _ & H). destruct (H i n ss Hi) as (_ & H1 & _).
  cbn [geometry_set object_of] in Hin. apply drop_empty_incl in Hin.
  destruct (segments_material _ _ _ _ _ _ Hin) as [K|(x & K & Hx)]; rewrite K in E; [discriminate|]. inversion E; subst.
  eapply token_name; eauto. apply H1. apply in_flat_map. exists (SUse m). split; auto. now left.
Qed.

(** * Every element in a group *)

Lemma shapes_groups : forall base ss before i se, In se (shapes_from before base ss i) ->
  exists p q, ss = p ++ q /\ se_groups se = groups_at (before ++ p).
Proof.
  intros base ss. induction ss as [|s ss IH]; intros before i se H; [destruct H|].
  cbn in H. apply in_app_or in H. destruct H as [H|H].
  - apply in_map_iff in H. destruct H as (j & <- & _). exists [], (s :: ss). split; auto. now rewrite app_nil_r.
  - destruct (IH _ _ _ H) as (p & q & -> & E). exists (s :: p), q. split; auto. rewrite E, <- app_assoc. reflexivity.
Qed.

Lemma last_group_in : forall ss q names, last_group ss = Some (q, names) -> In (SGroup names) ss.
Proof.
  induction ss as [|s ss IH]; intros q names H; [discriminate|]. cbn in H.
  destruct (last_group ss) as [[q' n']|]; [inversion H; subst; right; eauto|].
  destruct s; try discriminate. inversion H; subst. now left.
Qed.

Lemma grouped : forall f, says input f -> forall i ob n ss,
  nth_error (objects set) i = Some ob -> nth_error (file_objects f) i = Some (n, ss) ->
  (forall names, In (SGroup names) ss -> names <> []) ->
  forall se, In se (shape_set ob) -> se_groups se <> [].
Proof.
  intros f Hs i ob n ss Hob Hi Hn se Hin. rewrite (nth_is _ _ _ Hfits Hok f Hs i ob n ss Hob Hi) in Hin.
  cbn [shape_set object_of] in Hin. destruct (shapes_groups _ _ _ _ _ Hin) as (p & q & E & ->). cbn [app].
  unfold groups_at. destruct (last_group p) as [[q' names]|] eqn:El; [|discriminate].
  apply last_group_in in El. assert (K : names <> []) by (apply Hn; rewrite E; apply in_or_app; auto).
  destruct names; [congruence|]. destruct (all_groups q'); discriminate.
Qed.

(** * Sizes *)

Definition sum_over (g : object -> nat) : nat := list_sum (map g (objects set)).

Lemma sum_le : forall (g : object -> nat),
  (forall base n ss, drawable (n, ss) -> g (object_of base n ss) <= total cost ss) -> sum_over g <= length input.
Proof.
  intros g Hg. destruct (parsed_said _ _ _ Hfits Hok) as (f & (ts & Ht & Hr) & Hd & E).
  destruct (file_cost _ _ Hr) as [H1 _]. pose proof (tokenizes_length _ _ Ht) as Hl.
  unfold sum_over. rewrite E. cbn [objects file_means].
  assert (K : forall os c, Forall drawable os -> list_sum (map g (objects_of c os)) <= total_objects cost os).
  { induction os as [|[n ss] os IH]; intros c HF; [cbn; lia|]. inversion HF; subst.
    cbn [objects_of map]. unfold total_objects. cbn [map list_sum fold_right snd].
    pose proof (Hg c n ss ltac:(auto)). pose proof (IH (count_all c ss) ltac:(auto)). unfold total_objects in *.
    change (g (object_of c n ss) + list_sum (map g (objects_of (count_all c ss) os)) <=
            total cost ss + list_sum (map (fun o => total cost (snd o)) os)). lia. }
  pose proof (K (file_objects f) no_counts Hd). lia.
Qed.

Lemma all_sizes :
  length (material_libraries set) <= length input /\
  length (objects set) <= length input /\
  sum_over (fun ob => length (vertex_set ob)) <= length input /\
  sum_over (fun ob => length (texture_vertex_set ob)) <= length input /\
  sum_over (fun ob => length (normal_vertex_set ob)) <= length input /\
  sum_over (fun ob => length (group_set ob)) <= length input /\
  sum_over (fun ob => length (smoothing_group_set ob)) <= length input /\
  sum_over (fun ob => length (element_set ob)) <= length input /\
  sum_over (fun ob => length (shape_set ob)) <= length input /\
  sum_over (fun ob => length (geometry_set ob)) <= length input.
Proof.
  assert (K : length (material_libraries set) <= length input /\ length (objects set) <= length input).
  { destruct (parsed_said _ _ _ Hfits Hok) as (f & (ts & Ht & Hr) & Hd & E).
    destruct (file_cost _ _ Hr) as [H1 H2]. pose proof (tokenizes_length _ _ Ht) as Hl.
    rewrite E. cbn [objects file_means material_libraries]. rewrite objects_of_length. lia. }
  destruct K as [K1 K2]. split; auto. split; auto.
  repeat match goal with |- _ /\ _ => split end; apply sum_le; intros base n ss Hd;
    pose proof (sizes base n ss) as Hs; pose proof (size_geometries base n ss Hd); cbv zeta in Hs; lia.
Qed.
End Names.

Lemma carriage_return : forall input before after ts rest done o, fits input ->
  input = before ++ after -> tokenizes before ts -> tokenizes after ([CR] :: rest) -> tokenizes input (ts ++ [CR] :: rest) ->
  reaches (ts ++ [CR] :: rest) done (Some o) ([CR] :: rest) ->
  parse false input = Err (mkParseError (line_after before) InvalidObjectStatement (msg_statement [CR])).
Proof.
  intros. eapply unknown_statement; eauto; try discriminate.
  intros K. cbn in K. repeat destruct K as [K|K]; try discriminate. destruct K.
Qed.
