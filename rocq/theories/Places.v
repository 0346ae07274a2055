(** Every line starts between statements. *)
From Verif Require Import ObjModel ObjErrorSpec ObjView PlaceSpec LexerProofs ObjAccept ObjFile ObjTop ObjReach ObjUnique ObjMeaning ObjExtend ObjMore.
Local Open Scope list_scope.

(** * Newlines in a statement *)

(** A newline is the last token, if it is one at all. *)
Definition ends (u : list bytes) : Prop := exists a, Forall (fun t => t <> nl) a /\ (u = a \/ u = a ++ [nl]).

Lemma ends_last : forall u x y, ends u -> u = x ++ nl :: y -> y = [].
Proof.
  intros u x y (a & Ha & [->| ->]) E.
  - subst a. apply Forall_elt in Ha. congruence.
  - destruct y as [|c y] using rev_ind; auto. exfalso. rewrite app_comm_cons, app_assoc in E. apply app_inj_tail in E. destruct E as [-> _].
    apply Forall_elt in Ha. congruence.
Qed.

Lemma ends_all : forall u, Forall (fun t => t <> nl) u -> ends u.
Proof. intros u H. exists u. auto. Qed.

Lemma ends_cons : forall t u, t <> nl -> ends u -> ends (t :: u).
Proof.
  intros t u Ht (a & Ha & H). exists (t :: a). split; [now constructor|]. destruct H as [->| ->]; auto.
Qed.

Lemma ends_nl : ends [nl].
Proof. exists []. split; auto. Qed.

Lemma float_not_nl : forall t x, float_token t x -> t <> nl.
Proof. intros t x H ->. discriminate H. Qed.

Lemma line_ends : forall ts names rest, reads_line ts names rest -> exists u, ts = u ++ rest /\ ends u.
Proof.
  intros ts names rest H.
  assert (K : forall l, ~ In nl l -> Forall (fun t => t <> nl) l).
  { intros l Hl. apply Forall_forall. intros t Ht ->. auto. }
  inversion H; subst.
  - exists names. rewrite app_nil_r. split; auto. apply ends_all; auto.
  - exists (names ++ [nl]). rewrite <- app_assoc. split; auto. exists names. auto.
Qed.

Lemma optional_ends : forall d ts x rest, reads_optional d ts x rest -> exists u, ts = u ++ rest /\ Forall (fun t => t <> nl) u.
Proof.
  intros d ts x rest H. inversion H; subst.
  - exists [t]. split; auto. constructor; auto. eapply float_not_nl; eauto.
  - exists []. auto.
  - exists []. auto.
Qed.

Lemma refs_ends : forall base now ts rs rest, reads_refs base now ts rs rest -> exists u, ts = u ++ rest /\ ends u.
Proof.
  intros base now ts rs rest H. induction H as [|t rest Ht|t r ts rs rest Ht H IH].
  - exists []. split; auto. apply ends_all. auto.
  - exists [t]. split; auto. destruct (list_eq_dec ascii_dec t nl) as [->|Hn]; [apply ends_nl|]. apply ends_all. auto.
  - destruct IH as (u & -> & Hu). exists (t :: u). split; auto. apply ends_cons; auto. intros ->. exact (nl_not_ref _ _ _ Ht).
Qed.

Lemma statement_ends : forall base now ts s rest, reads_statement base now ts s rest -> exists u, ts = u ++ rest /\ ends u /\ u <> [].
Proof.
  intros base now ts s rest H. inversion H; subst.
  - destruct (optional_ends _ _ _ _ H3) as (u & -> & Hu). exists (lit "v" :: tx :: ty :: tz :: u). split; auto. split; [|discriminate].
    apply ends_all. repeat (constructor; [first [discriminate|eapply float_not_nl; eassumption]|]). exact Hu.
  - destruct (optional_ends _ _ _ _ H1) as (p & -> & Hp). destruct (optional_ends _ _ _ _ H2) as (q & -> & Hq).
    exists (lit "vt" :: tu :: p ++ q). cbn [app]. rewrite <- app_assoc. split; auto. split; [|discriminate].
    apply ends_all. repeat (constructor; [first [discriminate|eapply float_not_nl; eassumption]|]). apply Forall_app. auto.
  - exists [lit "vn"; tx; ty; tz]. split; auto. split; [|discriminate].
    apply ends_all. repeat (constructor; [first [discriminate|eapply float_not_nl; eassumption]|]). constructor.
  - destruct (line_ends _ _ _ H0) as (u & -> & Hu). exists (lit "g" :: u). split; auto. split; [|discriminate]. apply ends_cons; [discriminate|auto].
  - exists [lit "s"; t]. split; auto. split; [|discriminate]. apply ends_all. constructor; [discriminate|]. constructor; auto.
    intros ->. inversion H0 as [|t' n' K]; subst. vm_compute in K. discriminate K.
  - exists [lit "usemtl"; name]. split; auto. split; [|discriminate]. apply ends_cons; [discriminate|].
    destruct (list_eq_dec ascii_dec name nl) as [->|Hn]; [apply ends_nl|]. apply ends_all. auto.
  - destruct (line_ends _ _ _ H0) as (u & -> & Hu). exists (lit "p" :: u). split; auto. split; [|discriminate]. apply ends_cons; [discriminate|auto].
  - destruct (refs_ends _ _ _ _ _ H0) as (u & -> & Hu). exists (lit "l" :: u). split; auto. split; [|discriminate]. apply ends_cons; [discriminate|auto].
  - destruct (refs_ends _ _ _ _ _ H0) as (u & -> & Hu). exists (lit "f" :: u). split; auto. split; [|discriminate]. apply ends_cons; [discriminate|auto].
Qed.

(** * Lines *)

Lemma starts_more : forall T p before rest, line_starts T before rest -> line_starts T (p ++ before) rest.
Proof.
  intros T p before rest [H|(b & r & done & -> & -> & H)]; [now left|]. right. exists (p ++ b), r, done. now rewrite app_assoc.
Qed.

(** Two splits of the same list. *)
Lemma split_cases : forall (u v x y : list bytes) t, u ++ v = x ++ t :: y ->
  (exists y', u = x ++ t :: y' /\ y = y' ++ v) \/ (exists x', x = u ++ x' /\ v = x' ++ t :: y).
Proof.
  induction u as [|c u IH]; intros v x y t E; cbn in E.
  - right. exists x. auto.
  - destruct x as [|d x]; cbn in E; inversion E; subst.
    + left. exists u. auto.
    + destruct (IH _ _ _ _ H1) as [(y' & -> & ->)|(x' & -> & ->)]; [left; exists y'; auto|right; exists x'; auto].
Qed.

Lemma body_lines : forall T done name base now ts ss' rest, reads_body base now ts ss' rest ->
  forall ss, base = counts_in done [] -> now = counts_in done ss -> reaches T done (Some (name, ss)) ts ->
  exists v, ts = v ++ rest /\ forall x y, v = x ++ nl :: y -> exists ss1, reaches T done (Some (name, ss1)) (y ++ rest).
Proof.
  intros T done name base now ts ss' rest H.
  induction H as [now ts He|now ts ss' rest Hb IH|now ts s mid ss' rest Hs Hb IH]; intros ss Eb En Hr.
  - exists []. split; auto. intros [|? ?] y E; discriminate.
  - assert (Hr' := reaches_blank _ _ _ _ Hr). destruct (IH ss Eb En Hr') as (v & -> & Hv). exists (nl :: v). split; auto.
    intros [|t x] y E; inversion E; subst; eauto.
  - subst. assert (Hr' := reaches_statement _ _ _ _ _ _ _ Hr Hs).
    destruct (IH (ss ++ [s])) as (v & -> & Hv); auto.
    { unfold counts_in. now rewrite count_all_app. }
    destruct (statement_ends _ _ _ _ _ Hs) as (u & -> & Hu & _). exists (u ++ v). split; [now rewrite app_assoc|].
    intros x y E. apply split_cases in E. destruct E as [(y' & E & ->)|(x' & -> & E)]; [|eauto].
    pose proof (ends_last _ _ _ Hu E) as ->. cbn. eauto.
Qed.

Lemma objects_lines : forall T c ts os rest, reads_objects c ts os rest ->
  forall done, c = counts_in done [] -> Forall drawable os -> reaches T done None ts ->
  exists v, ts = v ++ rest /\ forall x y, v = x ++ nl :: y -> line_starts T x (y ++ rest).
Proof.
  intros T c ts os rest H. induction H as [c ts|c n ts ss mid os rest Hb Ho IH]; intros done Ec HF Hr.
  - exists []. split; auto. intros [|? ?] y E; discriminate.
  - inversion HF; subst.
    assert (Hr' := reaches_named _ _ _ _ Hr).
    assert (He : reaches T done (Some (n, ss)) mid) by (apply (body_reaches T done n ts ss mid _ _ Hb []); auto).
    destruct (body_lines T done n _ _ _ _ _ Hb [] eq_refl eq_refl Hr') as (v & -> & Hv).
    destruct (IH (done ++ [(n, ss)])) as (w & -> & Hw); auto.
    { unfold counts_in, count_objects. now rewrite fold_left_app. }
    { eapply reaches_end; eauto. eapply body_rest; eauto. }
    exists ((lit "o" :: n :: nl :: v) ++ w). split; [now rewrite <- app_assoc|].
    intros x y E. apply split_cases in E. destruct E as [(y' & E & ->)|(x' & -> & E)].
    2:{ now apply starts_more, Hw. }
    rewrite <- app_assoc. destruct x as [|t1 x]; cbn in E; [discriminate|]. injection E as <- E. destruct x as [|t2 x]; cbn in E.
    + injection E as -> <-. right. exists [], (v ++ w ++ rest), done. split; [reflexivity|]. split; [reflexivity|]. exact Hr'.
    + injection E as <- E. destruct x as [|t3 x]; cbn in E.
      * injection E as <-. left. right. eauto.
      * injection E as <- E. left. right. destruct (Hv _ _ E) as (ss1 & K). eauto.
Qed.

Lemma libraries_lines : forall ts libs rest, reads_libraries ts libs rest ->
  exists v, ts = v ++ rest /\ forall x y, v = x ++ nl :: y -> exists libs', some_libraries ts libs' (y ++ rest).
Proof.
  intros ts libs rest H. induction H as [ts libs rest H IH|ts names mid libs rest Hl H IH|ts He].
  - destruct IH as (v & -> & Hv). exists (nl :: v). split; auto. intros [|t x] y E; inversion E; subst.
    + exists []. apply some_blank, some_none.
    + destruct (Hv _ _ eq_refl) as (l & K). exists l. now apply some_blank.
  - destruct IH as (v & -> & Hv). destruct (line_ends _ _ _ Hl) as (u & -> & Hu).
    exists ((lit "mtllib" :: u) ++ v). split; [cbn; now rewrite app_assoc|].
    intros x y E. apply split_cases in E. destruct E as [(y' & E & ->)|(x' & -> & E)].
    + destruct x as [|t x]; inversion E; subst. pose proof (ends_last _ _ _ Hu eq_refl) as ->.
      exists (names ++ []). eapply some_line; eauto. apply some_none.
    + destruct (Hv _ _ E) as (l & K). exists (names ++ l). eapply some_line; eauto.
  - exists []. split; auto. intros [|? ?] y E; discriminate.
Qed.

Lemma file_lines : forall f before rest, reads_file (before ++ nl :: rest) f [] -> Forall drawable (file_objects f) ->
  line_starts (before ++ nl :: rest) before rest.
Proof.
  intros f before rest. remember (before ++ nl :: rest) as T eqn:ET. intros H HF.
  inversion H as [ts libs mid os rest' Hl Ho E1 E2|ts libs mid ss mid' os rest' Hl Hn Hb Ho E1 E2]; subst ts rest' f; cbn [file_objects] in HF.
  - destruct (libraries_lines _ _ _ Hl) as (u & Eu & Hu).
    assert (Hr : reaches T [] None mid) by (eapply reaches_start; eauto).
    destruct (objects_lines T _ _ _ _ Ho [] eq_refl HF Hr) as (v & Ev & Hv). rewrite app_nil_r in Ev. subst mid.
    assert (E : u ++ v = before ++ nl :: rest) by congruence. apply split_cases in E. destruct E as [(y' & E & ->)|(x' & -> & E)].
    + left. left. eapply Hu; eauto.
    + apply starts_more. rewrite <- (app_nil_r rest). eapply Hv; eauto.
  - inversion HF; subst. destruct (libraries_lines _ _ _ Hl) as (u & Eu & Hu).
    set (T := before ++ nl :: rest) in *.
    assert (Hr : reaches T [] (Some ([], [])) mid) by (apply reaches_unnamed; auto; eapply reaches_start; eauto).
    destruct (body_lines T [] [] _ _ _ _ _ Hb [] eq_refl eq_refl Hr) as (v & Ev & Hv).
    assert (He : reaches T [] (Some ([], ss)) mid') by (apply (body_reaches T [] [] mid ss mid' _ _ Hb []); auto).
    destruct (objects_lines T _ _ _ _ Ho [([], ss)] eq_refl) as (w & Ew & Hw); auto.
    { change [([], ss)] with ([] ++ [(@nil ascii, ss)]). eapply reaches_end; [|eapply body_rest; eauto|]; auto. }
    rewrite app_nil_r in Ew. subst mid' mid.
    assert (E : u ++ v ++ w = before ++ nl :: rest) by (symmetry; exact Eu). clearbody T. apply split_cases in E. destruct E as [(y' & E & ->)|(x' & -> & E)].
    + left. left. eapply Hu; eauto.
    + apply starts_more. apply split_cases in E. destruct E as [(y' & E & ->)|(x'' & -> & E)].
      * left. right. destruct (Hv _ _ E) as (ss1 & K). eauto.
      * apply starts_more. rewrite <- (app_nil_r rest). eapply Hw; eauto.
Qed.
