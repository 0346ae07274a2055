(** A text has at most one reading. *)
From Verif Require Import ObjModel ObjErrorSpec ObjAccept ObjFile.
Local Open Scope list_scope.

Lemma float_det : forall t x y, float_token t x -> float_token t y -> x = y.
Proof. unfold float_token. congruence. Qed.

Lemma number_det : forall t j k, number_token t j -> number_token t k -> j = k.
Proof. unfold number_token. intros t j k H H'. rewrite H in H'. inversion H'. lia. Qed.

Lemma smoothing_det : forall t m n, smoothing_token t m -> smoothing_token t n -> m = n.
Proof.
  intros t m n H H'. inversion H; subst; inversion H'; subst; auto; try congruence.
  - vm_compute in H0. discriminate.
  - vm_compute in H0. discriminate.
Qed.

Lemma line_det : forall ts names rest names' rest',
  reads_line ts names rest -> reads_line ts names' rest' -> names = names' /\ rest = rest'.
Proof.
  assert (Hsplit : forall names names' rest rest', ~ In nl names -> ~ In nl names' ->
    names ++ nl :: rest = names' ++ nl :: rest' -> names = names' /\ rest = rest').
  { induction names as [|a names IH]; intros [|b names'] rest rest' H H' E; cbn in E; inversion E; subst; auto.
    - exfalso. apply H'. now left.
    - exfalso. apply H. now left.
    - destruct (IH names' rest rest') as [-> ->]; auto.
      + intro. apply H. now right.
      + intro. apply H'. now right. }
  intros ts names rest names' rest' H H'. inversion H; subst; inversion H'; subst; auto.
  - exfalso. apply H0. apply in_or_app. right. now left.
  - exfalso. apply H1. apply in_or_app. right. now left.
Qed.

Lemma optional_det : forall d ts x rest x' rest',
  reads_optional d ts x rest -> reads_optional d ts x' rest' -> x = x' /\ rest = rest'.
Proof.
  intros d ts x rest x' rest' H H'. inversion H; subst; inversion H'; subst; auto.
  - split; auto. eapply float_det; eauto.
  - exfalso. match goal with K : forall x, ~ float_token _ x |- _ => eapply K; eauto end.
  - exfalso. match goal with K : forall x, ~ float_token _ x |- _ => eapply K; eauto end.
Qed.

Lemma refs_det : forall base now ts rs rest, reads_refs base now ts rs rest ->
  forall rs' rest', reads_refs base now ts rs' rest' -> rs = rs' /\ rest = rest'.
Proof.
  intros base now ts rs rest H. induction H as [|t rest Hn|t r ts rs rest Hv H IH]; intros rs' rest' H'; inversion H'; subst; auto.
  - exfalso. eapply Hn; eauto.
  - exfalso. match goal with K : forall r, ~ valid_ref _ _ _ r |- _ => eapply K; eauto end.
  - match goal with K : reads_refs _ _ ts _ _ |- _ => destruct (IH _ _ K) as [-> ->] end.
    split; auto. f_equal. eapply ref_det; eauto.
Qed.

Lemma points_det : forall base now toks ks ks',
  Forall2 (point_token base now) toks ks -> Forall2 (point_token base now) toks ks' -> ks = ks'.
Proof.
  intros base now toks ks ks' H. revert ks'. induction H as [|t k toks ks [Ht _] H IH]; intros ks' H'; inversion H' as [|? k' ? ? [Hk _]]; subst; auto.
  f_equal; auto. eapply number_det; eauto.
Qed.

Ltac unify_reads :=
  repeat match goal with
  | K : float_token ?t ?x, K' : float_token ?t ?y |- _ =>
      assert_fails (constr_eq x y); assert (x = y) by (eapply float_det; eauto); subst
  | K : smoothing_token ?t ?x, K' : smoothing_token ?t ?y |- _ =>
      assert_fails (constr_eq x y); assert (x = y) by (eapply smoothing_det; eauto); subst
  | K : reads_optional ?d ?ts ?x ?r, K' : reads_optional ?d ?ts ?y ?r' |- _ =>
      assert_fails (constr_eq K K');
      let E := fresh in assert (E : x = y /\ r = r') by (eapply optional_det; eauto); destruct E; subst; clear K'
  | K : reads_line ?ts ?x ?r, K' : reads_line ?ts ?y ?r' |- _ =>
      assert_fails (constr_eq K K');
      let E := fresh in assert (E : x = y /\ r = r') by (eapply line_det; eauto); destruct E; subst; clear K'
  | K : reads_refs ?b ?n ?ts ?x ?r, K' : reads_refs ?b ?n ?ts ?y ?r' |- _ =>
      assert_fails (constr_eq K K');
      let E := fresh in assert (E : x = y /\ r = r') by (eapply refs_det; eauto); destruct E; subst; clear K'
  | K : Forall2 (point_token ?b ?n) ?ts ?x, K' : Forall2 (point_token ?b ?n) ?ts ?y |- _ =>
      assert_fails (constr_eq x y); assert (x = y) by (eapply points_det; eauto); subst
  end.

Lemma statement_det : forall base now ts s rest s' rest',
  reads_statement base now ts s rest -> reads_statement base now ts s' rest' -> s = s' /\ rest = rest'.
Proof.
  intros base now ts s rest s' rest' H H'.
  destruct H; inversion H'; subst; unify_reads; auto.
Qed.

Lemma statement_end : forall base now ts s rest, reads_statement base now ts s rest -> ~ at_object_end ts.
Proof. intros base now ts s rest H He. inversion H; subst; cbn in He; vm_compute in He; discriminate. Qed.

Lemma body_det : forall base now ts ss rest, reads_body base now ts ss rest ->
  forall ss' rest', reads_body base now ts ss' rest' -> ss = ss' /\ rest = rest'.
Proof.
  intros base now ts ss rest H.
  induction H as [now ts He|now ts ss rest H IH|now ts s mid ss rest Hs H IH]; intros ss' rest' H'; inversion H'; subst; auto.
  - discriminate He.
  - exfalso. eapply statement_end; eauto.
  - match goal with K : at_object_end _ |- _ => discriminate K end.
  - exfalso. eapply statement_not_nl; eauto.
  - exfalso. eapply statement_end; eauto.
  - exfalso. eapply statement_not_nl; eauto.
  - match goal with K : reads_statement _ _ ts _ _ |- _ => destruct (statement_det _ _ _ _ _ _ _ Hs K) as [-> ->] end.
    match goal with K : reads_body _ _ _ _ rest' |- _ => destruct (IH _ _ K) as [-> ->] end. auto.
Qed.

Lemma objects_det : forall now ts os, reads_objects now ts os [] ->
  forall os', reads_objects now ts os' [] -> os = os'.
Proof.
  intros now ts os H. remember [] as rest eqn:Er. induction H as [now ts|now n ts ss mid os rest Hb H IH]; intros os' H'; subst; inversion H'; subst; auto.
  match goal with K : reads_body _ _ ts _ _ |- _ => destruct (body_det _ _ _ _ _ Hb _ _ K) as [-> ->] end.
  f_equal. apply IH; auto.
Qed.

Lemma libraries_det : forall ts libs rest, reads_libraries ts libs rest ->
  forall libs' rest', reads_libraries ts libs' rest' -> libs = libs' /\ rest = rest'.
Proof.
  intros ts libs rest H. induction H as [ts libs rest H IH|ts names mid libs rest Hl H IH|ts He]; intros libs' rest' H'; inversion H'; subst; auto.
  - exfalso. match goal with K : nl <> nl /\ _ |- _ => destruct K as [K _]; now apply K end.
  - match goal with K : reads_line ts _ _ |- _ => destruct (line_det _ _ _ _ _ Hl K) as [-> ->] end.
    match goal with K : reads_libraries _ _ rest' |- _ => destruct (IH _ _ K) as [-> ->] end. auto.
  - exfalso. match goal with K : _ /\ lit "mtllib" <> _ |- _ => destruct K as [_ K]; now apply K end.
  - exfalso. destruct He as [He _]. now apply He.
  - exfalso. destruct He as [_ He]. now apply He.
Qed.

Lemma file_det : forall ts f f', reads_file ts f [] -> reads_file ts f' [] -> f = f'.
Proof.
  intros ts f f' H H'.
  inversion H; subst; inversion H'; subst;
    match goal with K : reads_libraries ts _ _, K' : reads_libraries ts _ _ |- _ =>
      destruct (libraries_det _ _ _ K _ _ K') as [-> ->] end.
  - f_equal. eapply objects_det; eauto.
  - exfalso. match goal with K : reads_objects no_counts _ _ [], K' : ~ at_object_end _ |- _ =>
      destruct (objects_at_end _ _ _ _ K K') as [_ E]; subst; apply K'; exact I end.
  - exfalso. match goal with K : reads_objects no_counts _ _ [], K' : ~ at_object_end _ |- _ =>
      destruct (objects_at_end _ _ _ _ K K') as [_ E]; subst; apply K'; exact I end.
  - match goal with K : reads_body _ _ _ _ _, K' : reads_body _ _ _ _ _ |- _ =>
      assert_fails (constr_eq K K'); destruct (body_det _ _ _ _ _ K _ _ K') as [-> ->] end.
    f_equal. f_equal. eapply objects_det; eauto.
Qed.
