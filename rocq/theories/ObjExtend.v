(** Reading a file with a newline doubled, and a file with more text appended. *)
From Verif Require Import ObjModel ObjErrorSpec ObjView LexerProofs ObjAccept ObjFile ObjUnique.
Local Open Scope list_scope.

(** * Tokens of texts joined by a newline *)

(** * Where a newline can be *)

Lemma nl_not_float : forall x, ~ float_token nl x.
Proof. intros x H. vm_compute in H. discriminate. Qed.

Lemma nl_not_smoothing : forall n, ~ smoothing_token nl n.
Proof.
  intros n H. inversion H; subst.
  match goal with K : RustStd.parse_usize _ = _ |- _ => vm_compute in K; discriminate end.
Qed.

Lemma nl_not_ref : forall base now r, ~ valid_ref base now nl r.
Proof.
  intros base now r [H _]. inversion H as [? ? Hn|a b ? ? Hn Hb E|a b c ? ? ? Hn Hb Hc E]; subst.
  - vm_compute in Hn. discriminate.
  - assert (K : In "/"%char nl) by (rewrite <- E; apply in_or_app; right; now left). vm_compute in K. intuition discriminate.
  - assert (K : In "/"%char nl) by (rewrite <- E; apply in_or_app; right; now left). vm_compute in K. intuition discriminate.
Qed.

Lemma nl_not_number : forall k, ~ number_token nl k.
Proof. intros k H. vm_compute in H. discriminate. Qed.

Section Double.
Context (b : list bytes).

(** A reading that ends behind or in front of the newline. *)
Definition doubles {A} (R : list bytes -> A -> list bytes -> Prop) (a : list bytes) (x : A) (rest : list bytes) : Prop :=
  (exists a', rest = a' ++ nl :: b /\ R (a ++ nl :: nl :: b) x (a' ++ nl :: nl :: b)) \/
  (rest = b /\ R (a ++ nl :: nl :: b) x (nl :: b)).

Lemma optional_double : forall d a x rest, reads_optional d (a ++ nl :: b) x rest ->
  exists a', rest = a' ++ nl :: b /\ reads_optional d (a ++ nl :: nl :: b) x (a' ++ nl :: nl :: b).
Proof.
  intros d a x rest H. destruct a as [|t a]; cbn in *; inversion H; subst.
  - exfalso. eapply nl_not_float; eauto.
  - exists []. split; auto. now apply optional_other.
  - exists a. split; auto. now apply optional_given.
  - exists (t :: a). split; auto. now apply optional_other.
Qed.

Lemma split_nl : forall pre rest a, ~ In nl pre -> pre ++ rest = a ++ nl :: b ->
  exists a', a = pre ++ a' /\ rest = a' ++ nl :: b.
Proof.
  induction pre as [|p pre IH]; intros rest a Hn E; cbn in *; [eauto|].
  destruct a as [|t a]; cbn in E; inversion E; subst; [exfalso; apply Hn; now left|].
  destruct (IH rest a) as (a' & -> & ->); auto. eauto.
Qed.

Lemma line_double : forall a names rest, reads_line (a ++ nl :: b) names rest -> doubles reads_line a names rest.
Proof.
  intros a names rest H. inversion H as [? Hn|? ? Hn E]; subst.
  - exfalso. apply Hn. apply in_or_app. right. now left.
  - destruct (split_nl _ _ _ Hn E) as (a' & -> & E'). destruct a' as [|t a']; cbn in E'; inversion E'; subst.
    + right. split; auto. rewrite app_nil_r. now apply line_nl.
    + left. exists a'. split; auto. rewrite <- app_assoc. cbn. now apply line_nl.
Qed.

Lemma refs_double : forall base now a rs rest, reads_refs base now (a ++ nl :: b) rs rest ->
  doubles (reads_refs base now) a rs rest.
Proof.
  intros base now a. induction a as [|t a IH]; intros rs rest H; cbn in *; inversion H; subst.
  - right. split; auto. apply refs_stop. apply nl_not_ref.
  - exfalso. eapply nl_not_ref; eauto.
  - left. exists a. split; auto. now apply refs_stop.
  - match goal with K : reads_refs _ _ (a ++ _) _ _ |- _ => destruct (IH _ _ K) as [(a' & -> & K')|(-> & K')] end.
    + left. exists a'. split; auto. now apply refs_more.
    + right. split; auto. now apply refs_more.
Qed.

Ltac not_nl := let H := fresh in intros H; cbn in H; repeat destruct H as [H|H];
  try contradiction; try (vm_compute in H; discriminate);
  subst; first [ eapply nl_not_float; eassumption | eapply nl_not_smoothing; eassumption ].

Lemma statement_double : forall base now a s rest, reads_statement base now (a ++ nl :: b) s rest ->
  doubles (reads_statement base now) a s rest.
Proof.
  intros base now a s rest H.
  remember (a ++ nl :: b) as ts eqn:E. destruct H.
  - destruct (split_nl [lit "v"; tx; ty; tz] ts a) as (a' & -> & ->); [not_nl|exact E|].
    destruct (optional_double _ _ _ _ H2) as (a'' & -> & K). left. exists a''. split; auto. now apply reads_v.
  - destruct (split_nl [lit "vt"; tu] ts a) as (a' & -> & ->); [not_nl|exact E|].
    destruct (optional_double _ _ _ _ H0) as (a'' & -> & K).
    destruct (optional_double _ _ _ _ H1) as (a3 & -> & K'). left. exists a3. split; auto. cbn. eapply reads_vt; eauto.
  - destruct (split_nl [lit "vn"; tx; ty; tz] rest a) as (a' & -> & ->); [not_nl|exact E|].
    left. exists a'. split; auto. now apply reads_vn.
  - destruct (split_nl [lit "g"] ts a) as (a' & -> & ->); [not_nl|exact E|].
    destruct (line_double _ _ _ H) as [(a'' & -> & K)|(-> & K)]; [left; exists a''|right]; (split; [auto|now apply reads_g]).
  - destruct (split_nl [lit "s"; t] rest a) as (a' & -> & ->); [not_nl|exact E|].
    left. exists a'. split; auto. now apply reads_s.
  - destruct (split_nl [lit "usemtl"] (name :: rest) a) as (a' & -> & E'); [not_nl|exact E|].
    destruct a' as [|t a']; cbn in E'; inversion E'; subst.
    + right. split; auto. apply reads_usemtl.
    + left. exists a'. split; auto. apply reads_usemtl.
  - destruct (split_nl [lit "p"] ts a) as (a' & -> & ->); [not_nl|exact E|].
    destruct (line_double _ _ _ H) as [(a'' & -> & K)|(-> & K)]; [left; exists a''|right]; (split; [auto|cbn; eapply reads_p; eauto]).
  - destruct (split_nl [lit "l"] ts a) as (a' & -> & ->); [not_nl|exact E|].
    destruct (refs_double _ _ _ _ _ H) as [(a'' & -> & K)|(-> & K)]; [left; exists a''|right]; (split; [auto|cbn; eapply reads_l; eauto]).
  - destruct (split_nl [lit "f"] ts a) as (a' & -> & ->); [not_nl|exact E|].
    destruct (refs_double _ _ _ _ _ H) as [(a'' & -> & K)|(-> & K)]; [left; exists a''|right]; (split; [auto|cbn; eapply reads_f; eauto]).
Qed.

Lemma body_double : forall base now ts ss rest, reads_body base now ts ss rest -> forall a, ts = a ++ nl :: b ->
  (exists a', rest = a' ++ nl :: b /\ reads_body base now (a ++ nl :: nl :: b) ss (a' ++ nl :: nl :: b)) \/
  reads_body base now (a ++ nl :: nl :: b) ss rest.
Proof.
  intros base now ts ss rest H. induction H as [now ts He|now ts ss rest H IH|now ts s mid ss rest Hs H IH]; intros a E; subst.
  - left. exists a. split; auto. apply body_end. destruct a; cbn in *; auto.
  - destruct a as [|t a]; cbn in E; inversion E; subst.
    + right. now apply body_blank, body_blank.
    + destruct (IH a eq_refl) as [(a' & -> & K)|K]; [left; exists a'; split; auto|right]; now apply body_blank.
  - destruct (statement_double _ _ _ _ _ Hs) as [(a' & -> & K)|(-> & K)].
    + destruct (IH a' eq_refl) as [(a'' & -> & K')|K']; [left; exists a''; split; auto|right]; eapply body_statement; eauto.
    + right. eapply body_statement; eauto. now apply body_blank.
Qed.

Lemma objects_double : forall now ts os rest, reads_objects now ts os rest -> rest = [] -> forall a, ts = a ++ nl :: b ->
  reads_objects now (a ++ nl :: nl :: b) os [].
Proof.
  intros now ts os rest H. induction H as [now ts|now n ts ss mid os rest Hb H IH]; intros Er a E; subst.
  - destruct a; discriminate.
  - destruct (split_nl [lit "o"] (n :: nl :: ts) a) as (a1 & -> & E1); [intros [K|[]]; vm_compute in K; discriminate|exact E|].
    destruct a1 as [|t1 a1]; cbn in E1; inversion E1; subst.
    + eapply objects_more; [|exact H]. now apply body_blank.
    + match goal with K : nl :: _ = a1 ++ _ |- _ => rename K into E2 end.
      destruct a1 as [|t2 a2]; cbn in *; inversion E2; subst.
      * eapply objects_more; [|exact H]. now apply body_blank.
      * destruct (body_double _ _ _ _ _ Hb a2 eq_refl) as [(a' & -> & K)|K].
        -- eapply objects_more; [exact K|]. now apply IH.
        -- eapply objects_more; eauto.
Qed.

Lemma libraries_double : forall ts libs rest, reads_libraries ts libs rest -> forall a, ts = a ++ nl :: b ->
  (exists a', rest = a' ++ nl :: b /\ reads_libraries (a ++ nl :: nl :: b) libs (a' ++ nl :: nl :: b)) \/
  reads_libraries (a ++ nl :: nl :: b) libs rest.
Proof.
  intros ts libs rest H. induction H as [ts libs rest H IH|ts names mid libs rest Hl H IH|ts He]; intros a E; subst.
  - destruct a as [|t a]; cbn in E; inversion E; subst.
    + right. now apply libraries_blank, libraries_blank.
    + destruct (IH a eq_refl) as [(a' & -> & K)|K]; [left; exists a'; split; auto|right]; now apply libraries_blank.
  - destruct (split_nl [lit "mtllib"] ts a) as (a1 & -> & ->); [intros [K|[]]; vm_compute in K; discriminate|exact E|].
    destruct (line_double _ _ _ Hl) as [(a' & -> & K)|(-> & K)].
    + destruct (IH a' eq_refl) as [(a'' & -> & K')|K']; [left; exists a''; split; auto|right]; eapply libraries_line; eauto.
    + right. eapply libraries_line; eauto. now apply libraries_blank.
  - left. exists a. split; auto. apply libraries_end. destruct a; cbn in *; auto.
Qed.

Lemma file_double : forall a f, reads_file (a ++ nl :: b) f [] -> reads_file (a ++ nl :: nl :: b) f [].
Proof.
  intros a f H. inversion H as [ts libs mid os rest Hl Ho|ts libs mid ss mid' os rest Hl He Hb Ho]; subst.
  - destruct (libraries_double _ _ _ Hl a eq_refl) as [(a' & -> & K)|K].
    + eapply file_named; eauto. eapply objects_double; eauto.
    + eapply file_named; eauto.
  - destruct (libraries_double _ _ _ Hl a eq_refl) as [(a' & -> & K)|K].
    + assert (He' : ~ at_object_end (a' ++ nl :: nl :: b)) by (destruct a'; cbn in *; auto; discriminate).
      destruct (body_double _ _ _ _ _ Hb a' eq_refl) as [(a'' & -> & K')|K'].
      * eapply file_unnamed; eauto. eapply objects_double; eauto.
      * eapply file_unnamed; eauto.
    + eapply file_unnamed; eauto.
Qed.
End Double.

(** * More objects after the end *)

Section Extend.
Context (tl : list bytes).

Lemma optional_extend : forall d ts x rest, reads_optional d ts x rest ->
  reads_optional d (ts ++ nl :: tl) x (rest ++ nl :: tl).
Proof.
  intros d ts x rest H. inversion H; subst; cbn.
  - now apply optional_given.
  - now apply optional_other.
  - apply optional_other. apply nl_not_float.
Qed.

Definition extends {A} (R : list bytes -> A -> list bytes -> Prop) (ts : list bytes) (x : A) (rest : list bytes) : Prop :=
  R (ts ++ nl :: tl) x (rest ++ nl :: tl) \/ (rest = [] /\ R (ts ++ nl :: tl) x tl).

Lemma line_extend : forall ts names rest, reads_line ts names rest -> extends reads_line ts names rest.
Proof.
  intros ts names rest H. inversion H; subst.
  - right. split; auto. now apply line_nl.
  - left. rewrite <- app_assoc. now apply line_nl.
Qed.

Lemma refs_extend : forall base now ts rs rest, reads_refs base now ts rs rest -> extends (reads_refs base now) ts rs rest.
Proof.
  intros base now ts rs rest H. induction H as [|t rest Hn|t r ts rs rest Hv H IH].
  - right. split; auto. apply refs_stop. apply nl_not_ref.
  - left. now apply refs_stop.
  - destruct IH as [K|(-> & K)]; [left|right; split; auto]; now apply refs_more.
Qed.

Lemma statement_extend : forall base now ts s rest, reads_statement base now ts s rest ->
  extends (reads_statement base now) ts s rest.
Proof.
  intros base now ts s rest H. destruct H.
  - left. apply reads_v; auto using optional_extend.
  - left. eapply reads_vt; eauto using optional_extend.
  - left. now apply reads_vn.
  - destruct (line_extend _ _ _ H) as [K|(-> & K)]; [left|right; split; auto]; now apply reads_g.
  - left. now apply reads_s.
  - left. apply reads_usemtl.
  - destruct (line_extend _ _ _ H) as [K|(-> & K)]; [left|right; split; auto]; eapply reads_p; eauto.
  - destruct (refs_extend _ _ _ _ _ H) as [K|(-> & K)]; [left|right; split; auto]; eapply reads_l; eauto.
  - destruct (refs_extend _ _ _ _ _ H) as [K|(-> & K)]; [left|right; split; auto]; eapply reads_f; eauto.
Qed.
End Extend.

Section Append.
Context (tl : list bytes).

Definition rest_with (rest : list bytes) : list bytes :=
  match rest with
  | [] => lit "o" :: tl
  | _ => rest ++ nl :: lit "o" :: tl
  end.

Lemma body_append : forall base now ts ss rest, reads_body base now ts ss rest ->
  reads_body base now (ts ++ nl :: lit "o" :: tl) ss (rest_with rest).
Proof.
  intros base now ts ss rest H. induction H as [now ts He|now ts ss rest H IH|now ts s mid ss rest Hs H IH].
  - destruct ts as [|t ts]; cbn in *.
    + apply body_blank, body_end. reflexivity.
    + apply body_end. exact He.
  - now apply body_blank.
  - destruct (statement_extend (lit "o" :: tl) _ _ _ _ _ Hs) as [K|(-> & K)].
    + eapply body_statement; eauto.
    + eapply body_statement; eauto. inversion H; subst.
      * apply body_end. reflexivity.
      * exfalso. eapply statement_end; [eassumption|exact I].
Qed.

Lemma objects_append : forall now ts os rest, reads_objects now ts os rest -> rest = [] -> ts <> [] ->
  reads_objects now (ts ++ nl :: lit "o" :: tl) os (lit "o" :: tl).
Proof.
  intros now ts os rest H. induction H as [now ts|now n ts ss mid os rest Hb H IH]; intros Er Hne; [congruence|].
  cbn. eapply objects_more; [apply (body_append _ _ _ _ _ Hb)|].
  destruct mid as [|t mid].
  - cbn. inversion H; subst. apply objects_end.
  - cbn [rest_with]. apply IH; auto. discriminate.
Qed.

Lemma libraries_append : forall ts libs rest, reads_libraries ts libs rest ->
  reads_libraries (ts ++ nl :: lit "o" :: tl) libs (rest_with rest).
Proof.
  assert (Ho : reads_libraries (lit "o" :: tl) [] (lit "o" :: tl)) by (apply libraries_end; split; discriminate).
  intros ts libs rest H. induction H as [ts libs rest H IH|ts names mid libs rest Hl H IH|ts He].
  - now apply libraries_blank.
  - destruct (line_extend (lit "o" :: tl) _ _ _ Hl) as [K|(-> & K)].
    + eapply libraries_line; eauto.
    + eapply libraries_line; eauto. inversion H; subst. exact Ho.
  - destruct ts as [|t ts]; cbn.
    + now apply libraries_blank.
    + now apply libraries_end.
Qed.

Lemma file_append : forall ts f, reads_file ts f [] -> reads_file (ts ++ nl :: lit "o" :: tl) f (lit "o" :: tl).
Proof.
  intros ts f H. inversion H as [ts' libs mid os rest Hl Ho|ts' libs mid ss mid' os rest Hl He Hb Ho]; subst.
  - pose proof (libraries_append _ _ _ Hl) as K. destruct mid as [|t mid].
    + inversion Ho; subst. eapply file_named; eauto. apply objects_end.
    + eapply file_named; eauto. eapply objects_append; eauto. discriminate.
  - pose proof (libraries_append _ _ _ Hl) as K. destruct mid as [|t mid]; [exfalso; apply He; exact I|].
    eapply file_unnamed; [exact K|exact He|exact (body_append _ _ _ _ _ Hb)|].
    destruct mid' as [|t' mid'].
    + inversion Ho; subst. apply objects_end.
    + eapply objects_append; eauto. discriminate.
Qed.

Lemma objects_prefix : forall now ts os rest, reads_objects now ts os rest ->
  forall os', reads_objects now ts os' [] -> exists more, os' = os ++ more.
Proof.
  intros now ts os rest H. induction H as [now ts|now n ts ss mid os rest Hb H IH]; intros os' H'; [now exists os'|].
  inversion H'; subst.
  match goal with K : reads_body _ _ ts _ _ |- _ => destruct (body_det _ _ _ _ _ Hb _ _ K) as [-> ->] end.
  match goal with K : reads_objects _ _ _ [] |- _ => destruct (IH _ K) as [more ->] end. now exists more.
Qed.

Lemma file_prefix : forall ts f t rest f', reads_file ts f (t :: rest) -> t = lit "o" -> reads_file ts f' [] ->
  file_libraries f' = file_libraries f /\ exists more, file_objects f' = file_objects f ++ more.
Proof.
  intros ts f t rest f' H Et H'. subst t.
  inversion H as [ts1 libs mid os rest1 Hl Ho|ts1 libs mid ss mid' os rest1 Hl He Hb Ho]; subst;
  inversion H' as [ts2 libs2 mid2 os2 rest2 Hl2 Ho2|ts2 libs2 mid2 ss2 mid2' os2 rest2 Hl2 He2 Hb2 Ho2]; subst;
  destruct (libraries_det _ _ _ Hl _ _ Hl2) as [<- <-]; cbn [file_libraries file_objects]; split; auto.
  - eapply objects_prefix; eauto.
  - exfalso. destruct (objects_at_end _ _ _ _ Ho He2) as [_ E]. apply He2. rewrite <- E. reflexivity.
  - exfalso. destruct (objects_at_end _ _ _ _ Ho2 He) as [_ E]. apply He. rewrite <- E. exact I.
  - destruct (body_det _ _ _ _ _ Hb _ _ Hb2) as [<- <-]. destruct (objects_prefix _ _ _ _ Ho _ Ho2) as [more ->].
    now exists more.
Qed.
End Append.
