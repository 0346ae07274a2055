(** Reading back what has been written. *)
From Verif Require Import ObjModel ObjErrorSpec ObjWriteSpec LexerProofs ObjAccept ObjFile ObjTop
  ObjMeaning ObjReach ObjUnique ObjExtend ObjFacts ObjMore ObjDebug ObjProps.
Local Open Scope list_scope.

Lemma optional_nl : forall d rest, reads_optional d (nl :: rest) d (nl :: rest).
Proof. intros d rest. apply optional_other. apply nl_not_float. Qed.

Lemma refs_written : forall base now toks rs, Forall2 ref_token toks rs -> Forall (ref_in_scope base now) rs ->
  Forall2 (valid_ref base now) toks rs.
Proof.
  intros base now toks rs H. induction H; intros HF; inversion HF; subst; constructor; auto. split; auto.
Qed.

Lemma points_written : forall base now toks ks, Forall2 number_token toks ks -> Forall (in_scope (n_v base) (n_v now)) ks ->
  Forall2 (point_token base now) toks ks.
Proof.
  intros base now toks rs H. induction H; intros HF; inversion HF; subst; constructor; auto. split; auto.
Qed.

Lemma point_nl : forall base now k, ~ point_token base now nl k.
Proof. intros base now k [H _]. eapply nl_not_number; eauto. Qed.

(** A line, with the newline after it or at the end of the text. *)
Lemma writes_reads : forall base now s line rest, writes s line -> proper base now s ->
  (reads_statement base now (line ++ nl :: rest) s rest \/ reads_statement base now (line ++ nl :: rest) s (nl :: rest)) /\
  reads_statement base now line s [].
Proof.
  intros base now s line rest H Hp. destruct H; cbn [app].
  - split; [right|]; apply reads_v; auto; [apply optional_nl|apply optional_eof].
  - split; [right|]; apply reads_v; auto; now apply optional_given.
  - split; [right|]; eapply reads_vt; eauto; try apply optional_nl; apply optional_eof.
  - split; [right|]; eapply reads_vt; eauto; try (now apply optional_given); try apply optional_nl; apply optional_eof.
  - split; [right|]; eapply reads_vt; eauto; now apply optional_given.
  - split; [right|]; now apply reads_vn.
  - split; [left|]; apply reads_g; [now apply line_nl|now apply line_eof].
  - split; [right|]; now apply reads_s.
  - split; [right|]; apply reads_usemtl.
  - destruct Hp as [Hn Hs]. pose proof (points_written _ _ _ _ H Hs) as HF.
    assert (K : ~ In nl toks) by (eapply forall2_not_nl; [|eauto]; apply point_nl).
    split; [left|]; eapply reads_p; eauto; [now apply line_nl|now apply line_eof].
  - destruct Hp as (Hl & Hf & Hs). pose proof (refs_written _ _ _ _ H Hs) as HF.
    split; [left|]; apply reads_l; auto.
    + apply (refs_prefix _ _ toks rs (nl :: rest) HF). apply nl_not_ref.
    + rewrite <- (app_nil_r toks). now apply (refs_prefix _ _ toks rs [] HF).
  - destruct Hp as (Hl & Hf & Hs). pose proof (refs_written _ _ _ _ H Hs) as HF.
    split; [left|]; apply reads_f; auto.
    + apply (refs_prefix _ _ toks rs (nl :: rest) HF). apply nl_not_ref.
    + rewrite <- (app_nil_r toks). now apply (refs_prefix _ _ toks rs [] HF).
Qed.

Lemma writes_head : forall s line, writes s line -> exists k l, line = k :: l /\ k <> nl /\ k <> lit "o" /\ k <> lit "mtllib".
Proof. intros s line H. destruct H; (do 2 eexists; split; [reflexivity|]); repeat split; discriminate. Qed.

Lemma body_reads : forall last ss ts, writes_body last ss ts -> forall base now rest, proper_body base now ss ->
  at_object_end rest -> (last = true -> rest = []) -> reads_body base now (ts ++ rest) ss rest.
Proof.
  intros last ss ts H. induction H as [|ss ts H IH|s line ss ts Hw H IH|s line Hl Hw]; intros base now rest Hp He Hlast.
  - now apply body_end.
  - cbn. apply body_blank. auto.
  - destruct Hp as [Hp Hps]. rewrite <- app_assoc. cbn [app].
    destruct (writes_reads _ _ _ _ (ts ++ rest) Hw Hp) as [[K|K] _].
    + eapply body_statement; [exact K|]. auto.
    + eapply body_statement; [exact K|]. apply body_blank. auto.
  - rewrite (Hlast Hl), app_nil_r. destruct Hp as [Hp _].
    destruct (writes_reads _ _ _ _ [] Hw Hp) as [_ K]. eapply body_statement; [exact K|]. now apply body_end.
Qed.

Lemma objects_end_at : forall os ts, writes_objects os ts -> at_object_end ts.
Proof. intros os ts H. destruct H; [exact I|reflexivity]. Qed.

Lemma objects_none : forall (os : list (bytes * list statement)) ts, writes_objects os ts -> none_left os = true -> ts = [].
Proof. intros os ts H. destruct H; [auto|discriminate]. Qed.

Lemma objects_read : forall os ts, writes_objects os ts -> forall now, proper_objects now os -> reads_objects now ts os [].
Proof.
  intros os ts H. induction H as [|name ss ts os ts' Hb H IH]; intros now Hp; [apply objects_end|].
  destruct Hp as [Hp Hps]. eapply objects_more; [|apply IH; exact Hps].
  eapply body_reads; eauto; [eapply objects_end_at; eauto|eapply objects_none; eauto].
Qed.

Lemma libraries_read : forall libs tl, writes_libraries libs tl -> forall libs' ts rest,
  reads_libraries ts libs' rest -> reads_libraries (tl ++ ts) (libs ++ libs') rest.
Proof.
  intros libs tl H. induction H as [|libs tl H IH|names libs tl Hn H IH]; intros libs' ts rest Hr; auto.
  - cbn. apply libraries_blank. auto.
  - cbn. rewrite <- !app_assoc. cbn. eapply libraries_line; [|apply IH; exact Hr]. now apply line_nl.
Qed.

(** The blank lines in front of an object without a name are read with the
    libraries. *)
Lemma body_start : forall last ss ts, writes_body last ss ts -> ss <> [] ->
  exists ts', writes_body last ss ts' /\ (forall rest, reads_libraries (ts ++ rest) [] (ts' ++ rest)) /\
    forall rest, ~ at_object_end (ts' ++ rest).
Proof.
  intros last ss ts H. induction H as [|ss ts H IH|s line ss ts Hw H IH|s line Hl Hw]; intros Hne; [congruence| | |].
  - destruct (IH Hne) as (ts' & K1 & K2 & K3). exists ts'. split; auto. split; auto. intros rest. cbn. apply libraries_blank. auto.
  - exists (line ++ nl :: ts). destruct (writes_head _ _ Hw) as (k & l & -> & H1 & H2 & H3). split; [|split].
    + now apply writes_body_line.
    + intros rest. apply libraries_end. cbn. auto.
    + intros rest E. apply H2. exact E.
  - exists line. destruct (writes_head _ _ Hw) as (k & l & -> & H1 & H2 & H3). split; [|split].
    + now apply writes_body_last.
    + intros rest. apply libraries_end. cbn. auto.
    + intros rest E. apply H2. exact E.
Qed.

Lemma drawable_some : forall n ss, drawable (n, ss) -> ss <> [].
Proof. intros n ss (s & H & _) ->. destruct H. Qed.

Lemma file_read : forall f ts, writes_file f ts -> well_formed f -> reads_file ts f [].
Proof.
  intros f ts H [Hp Hd]. destruct H as [libs os tl ts Hl Ho|libs ss os tl ts ts' Hl Hb Ho]; cbn [file_objects] in *.
  - eapply file_named; [|eapply objects_read; eauto].
    rewrite <- (app_nil_r libs). apply libraries_read; auto. apply libraries_end.
    destruct Ho; [exact I|]. split; discriminate.
  - inversion Hd; subst. destruct Hp as [Hp Hps].
    destruct (body_start _ _ _ Hb) as (ts1 & K1 & K2 & K3); [eapply drawable_some; eauto|].
    eapply file_unnamed with (mid := ts1 ++ ts') (mid' := ts').
    + rewrite <- (app_nil_r libs). apply libraries_read; auto.
    + apply K3.
    + eapply body_reads; eauto; [eapply objects_end_at; eauto|eapply objects_none; eauto].
    + eapply objects_read; eauto.
Qed.

(** * Nothing in it is too low *)

Lemma low_not_positive : forall base now t, ref_too_low base now t -> ref_not_positive t.
Proof.
  assert (K : forall n p, too_low n p -> not_positive p) by (intros n p (z & E & H & _); exists z; split; auto; lia).
  intros base now t H. destruct H as [p ps Hps Hl|p q ps Hps _ Hl|p q r ps Hps _ _ Hl];
    [exists (p :: ps), p|exists (p :: q :: ps), q|exists (p :: q :: r :: ps), r]; (split; [auto|split; [cbn; auto|eauto]]).
Qed.

Lemma first_other : forall A (P : A -> Prop) toks t r w stop, Forall P toks -> Forall P w -> ~ P t ->
  match stop with [] => True | x :: _ => ~ P x end -> toks ++ t :: r = w ++ stop -> exists r', stop = t :: r'.
Proof.
  intros A P toks t r w stop HF. revert w. induction HF as [|a toks Ha HF IH]; intros w Hw Ht Hs E; cbn in E.
  - destruct Hw as [|b w Hb Hw]; [cbn in E; eauto|]. inversion E; subst. contradiction.
  - destruct Hw as [|b w Hb Hw]; cbn in E; [destruct stop; inversion E; subst; contradiction|].
    inversion E; subst. eapply IH; eauto.
Qed.

Lemma forall2_left : forall A B (P : A -> B -> Prop) l l', Forall2 P l l' -> Forall (fun a => exists b, P a b) l.
Proof. intros A B P l l' H. induction H; constructor; eauto. Qed.

(** A written line overflows at no place. *)
Lemma line_quiet : forall base now s line stop, writes s line -> proper base now s ->
  match stop with [] => True | x :: _ => x = nl end -> ~ overflows base now (line ++ stop).
Proof.
  intros base now s line stop Hw Hp Hs Ho.
  assert (Hnr : match stop with [] => True | x :: _ => ~ (exists r, valid_ref base now x r) end).
  { destruct stop; auto. subst. intros [r K]. eapply nl_not_ref; eauto. }
  assert (Hnp : match stop with [] => True | x :: _ => ~ (exists r, point_token base now x r) end).
  { destruct stop; auto. subst. intros [r K]. eapply point_nl; eauto. }
  inversion Ho as [toks ks t rest HF Hl E|toks rs t rest HF Hl E|toks rs t rest HF Hl E];
    destruct Hw; cbn [app] in E; inversion E; subst; clear E.
  - destruct Hp as [_ Hp]. match goal with K : Forall2 number_token _ _, K' : _ ++ _ :: _ = _ ++ _ |- _ =>
      pose proof (points_written _ _ _ _ K Hp) as HF'; destruct (first_other _ (fun a => exists b, point_token base now a b) _ _ _ _ _
       (forall2_left _ _ _ _ _ HF) (forall2_left _ _ _ _ _ HF') ltac:(intros [k [Kn Ks]]; destruct Hl as (z & Ez & Hz & _); unfold number_token in Kn; rewrite Ez in Kn; inversion Kn; subst; lia) Hnp K') as [r' ->] end.
    cbn in Hs. subst. eapply low_not_nl; eauto.
  - destruct Hp as (_ & _ & Hp). match goal with K : Forall2 ref_token _ _, K' : _ ++ _ :: _ = _ ++ _ |- _ =>
      pose proof (refs_written _ _ _ _ K Hp) as HF'; destruct (first_other _ (fun a => exists b, valid_ref base now a b) _ _ _ _ _
       (forall2_left _ _ _ _ _ HF) (forall2_left _ _ _ _ _ HF') ltac:(intros [k K2]; eapply not_positive_ref; [eapply low_not_positive|]; eauto) Hnr K') as [r' ->] end.
    cbn in Hs. subst. eapply low_ref_not_nl; eauto.
  - destruct Hp as (_ & _ & Hp). match goal with K : Forall2 ref_token _ _, K' : _ ++ _ :: _ = _ ++ _ |- _ =>
      pose proof (refs_written _ _ _ _ K Hp) as HF'; destruct (first_other _ (fun a => exists b, valid_ref base now a b) _ _ _ _ _
       (forall2_left _ _ _ _ _ HF) (forall2_left _ _ _ _ _ HF') ltac:(intros [k K2]; eapply not_positive_ref; [eapply low_not_positive|]; eauto) Hnr K') as [r' ->] end.
    cbn in Hs. subst. eapply low_ref_not_nl; eauto.
Qed.

Section Quiet.
Context (f : obj_file) (T : list bytes) (Hw : writes_file f T) (Hwf : well_formed f).

Definition left_over (done : list (bytes * list statement)) (cur : option (bytes * list statement)) (rest : list bytes) : Prop :=
  match cur with
  | None => exists more, file_objects f = done ++ more /\
      (writes_objects more rest \/
       (done = [] /\ exists ss os ts1 ts2, more = ([], ss) :: os /\ rest = ts1 ++ ts2 /\
          writes_body (none_left os) ss ts1 /\ writes_objects os ts2))
  | Some (n, ss) => exists ss' more ts1 ts2, file_objects f = done ++ (n, ss ++ ss') :: more /\ rest = ts1 ++ ts2 /\
      writes_body (none_left more) ss' ts1 /\ writes_objects more ts2
  end.

Lemma proper_at : forall done n ss s ss' more, file_objects f = done ++ (n, ss ++ s :: ss') :: more ->
  proper (counts_in done []) (counts_in done ss) s.
Proof.
  intros done n ss s ss' more E. destruct Hwf as [Hp _].
  assert (Hi : nth_error (file_objects f) (length done) = Some (n, ss ++ s :: ss')).
  { rewrite E, nth_error_app2 by lia. now rewrite Nat.sub_diag. }
  apply (proper_nth _ _ _ _ Hp) in Hi. rewrite E, firstn_app, Nat.sub_diag, firstn_all in Hi. cbn in Hi. rewrite app_nil_r in Hi.
  change (count_objects no_counts done) with (counts_in done []) in Hi.
  assert (K : forall ss now, proper_body (counts_in done []) now (ss ++ s :: ss') -> proper (counts_in done []) (count_all now ss) s).
  { clear. induction ss as [|s1 ss IH]; intros now H; cbn in *; [tauto|]. destruct H as [_ H]. now apply IH. }
  apply K in Hi. exact Hi.
Qed.

Lemma reaches_left : forall done cur rest, reaches T done cur rest -> left_over done cur rest.
Proof.
  intros done cur rest H.
  induction H as [libs rest H|rest H IH Hn|done name rest H IH|done [name ss] rest H IH|done name ss s mid rest H IH Hs|done [name ss] rest H IH He Hd].
  - exists (file_objects f). split; auto. destruct Hw as [libs' os tl ts Hl Ho|libs' ss os tl ts ts' Hl Hb Ho]; cbn [file_objects].
    + assert (K : reads_libraries (tl ++ ts) (libs' ++ []) ts).
      { apply libraries_read; auto. apply libraries_end. destruct Ho; [exact I|]. split; discriminate. }
      destruct (libraries_det _ _ _ H _ _ K) as [_ ->]. now left.
    + destruct Hwf as [_ Hd]. inversion Hd; subst.
      destruct (body_start _ _ _ Hb) as (ts1 & K1 & K2 & K3); [eapply drawable_some; eauto|].
      assert (K : reads_libraries (tl ++ ts ++ ts') (libs' ++ []) (ts1 ++ ts')) by (apply libraries_read; auto).
      destruct (libraries_det _ _ _ H _ _ K) as [_ ->]. right. split; auto. exists ss, os, ts1, ts'. auto.
  - destruct IH as (more & E & [K|(_ & ss & os & ts1 & ts2 & -> & -> & K1 & K2)]).
    + exfalso. apply Hn. eapply objects_end_at; eauto.
    + exists ss, os, ts1, ts2. auto.
  - destruct IH as (more & E & [K|(-> & ss & os & ts1 & ts2 & -> & E2 & K1 & K2)]).
    + inversion K; subst. do 4 eexists. split; [exact E|]. split; [reflexivity|]. auto.
    + destruct Hwf as [_ Hd]. rewrite E in Hd. cbn in Hd. inversion Hd; subst.
      destruct K1 as [|? ? K1|? ? ? ? Kw K1|? ? ? Kw].
      * exfalso. match goal with K : drawable ([], []) |- _ => apply drawable_some in K; congruence end.
      * inversion E2.
      * destruct (writes_head _ _ Kw) as (k & l & -> & Hk1 & Hk2 & Hk3). inversion E2. congruence.
      * destruct (writes_head _ _ Kw) as (k & l & -> & Hk1 & Hk2 & Hk3). inversion E2. congruence.
  - destruct IH as (ss' & more & ts1 & ts2 & E & E2 & K1 & K2).
    destruct K1 as [|? ? K1|? ? ? ? Kw K1|? ? ? Kw].
    + apply objects_end_at in K2. cbn in E2. subst ts2. discriminate K2.
    + inversion E2; subst. do 4 eexists. split; [exact E|]. split; [reflexivity|]. auto.
    + destruct (writes_head _ _ Kw) as (k & l & -> & Hk1 & Hk2 & Hk3). inversion E2. congruence.
    + destruct (writes_head _ _ Kw) as (k & l & -> & Hk1 & Hk2 & Hk3). inversion E2. congruence.
  - destruct IH as (ss' & more & ts1 & ts2 & E & E2 & K1 & K2). subst mid.
    destruct K1 as [|? ? K1|s0 line ss0 ts0 Kw K1|s0 line Hl Kw].
    + exfalso. eapply statement_end; [exact Hs|]. eapply objects_end_at; eauto.
    + exfalso. eapply statement_not_nl; eauto.
    + pose proof (proper_at _ _ _ _ _ _ E) as Hp. rewrite <- app_assoc in Hs. cbn [app] in Hs.
      destruct (writes_reads _ _ _ _ (ts0 ++ ts2) Kw Hp) as [[K|K] _]; destruct (statement_det _ _ _ _ _ _ _ Hs K) as [-> ->].
      * exists ss0, more, ts0, ts2. rewrite <- app_assoc. auto.
      * exists ss0, more, (nl :: ts0), ts2. rewrite <- app_assoc. split; auto. split; auto. split; auto. now apply writes_body_blank.
    + pose proof (proper_at _ _ _ _ _ _ E) as Hp. rewrite (objects_none _ _ K2 Hl), app_nil_r in Hs.
      destruct (writes_reads _ _ _ _ [] Kw Hp) as [_ K]; destruct (statement_det _ _ _ _ _ _ _ Hs K) as [-> ->].
      exists [], more, [], []. rewrite <- app_assoc. split; auto. split; auto. split; [apply writes_body_end|].
      now rewrite <- (objects_none _ _ K2 Hl).
  - destruct IH as (ss' & more & ts1 & ts2 & E & E2 & K1 & K2). subst rest.
    destruct K1 as [|? ? K1|s0 line ss0 ts0 Kw K1|s0 line Hl Kw].
    + exists more. rewrite app_nil_r in E. rewrite <- app_assoc. split; auto.
    + discriminate He.
    + destruct (writes_head _ _ Kw) as (k & l & -> & Hk1 & Hk2 & Hk3). exfalso. apply Hk2. exact He.
    + destruct (writes_head _ _ Kw) as (k & l & -> & Hk1 & Hk2 & Hk3). exfalso. apply Hk2. exact He.
Qed.

Lemma written_quiet : ~ overflows_file T.
Proof.
  intros (done & n & ss & ts & Hr & Ho). apply reaches_left in Hr.
  destruct Hr as (ss' & more & ts1 & ts2 & E & E2 & K1 & K2). subst ts.
  destruct K1 as [|? ? K1|s0 line ss0 ts0 Kw K1|s0 line Hl Kw].
  - destruct K2; inversion Ho.
  - eapply overflows_not_nl; eauto.
  - rewrite <- app_assoc in Ho. eapply (line_quiet _ _ _ _ (nl :: ts0 ++ ts2) Kw); eauto. eapply proper_at; eauto.
  - rewrite (objects_none _ _ K2 Hl) in Ho. eapply (line_quiet _ _ _ _ [] Kw); eauto. eapply proper_at; eauto.
Qed.
End Quiet.

Lemma written_parses : forall dbg f ts input, fits input -> well_formed f -> writes_file f ts -> tokenizes input ts ->
  parse dbg input = Ok (file_means f).
Proof.
  intros dbg f ts input Hf Hwf Hw Ht.
  assert (K : parse false input = Ok (file_means f)).
  { apply parse_says_iff; auto. exists f. split; [|split; [apply Hwf|auto]]. exists ts. split; auto. now apply file_read. }
  destruct dbg; auto. rewrite <- K. apply debug_otherwise; auto. intros C. apply debug_overflow_iff in C; auto.
  destruct C as (ts' & Ht' & Ho). assert (ts' = ts) by (apply tokenizes_iff in Ht, Ht'; congruence). subst ts'.
  eapply written_quiet; eauto.
Qed.
