(** How far a file is fine, and what happens there. *)
From Verif Require Import ObjModel ObjErrorSpec ObjView ObjState ObjFile ObjMeaning.
Local Open Scope list_scope.

Lemma reads_objects_snoc : forall c ts os name r ss rest,
  reads_objects c ts os (lit "o" :: name :: nl :: r) ->
  reads_body (count_objects c os) (count_objects c os) r ss rest ->
  reads_objects c ts (os ++ [(name, ss)]) rest.
Proof.
  intros c ts os name r ss rest H. remember (lit "o" :: name :: nl :: r) as mid eqn:Em.
  induction H as [c ts|c n ts ss' m os rest' Hb Ho IH]; intros Hs; subst.
  - cbn. eapply objects_more; [exact Hs|apply objects_end].
  - cbn. eapply objects_more; [exact Hb|]. apply IH; auto.
Qed.

Lemma reads_file_snoc : forall ts libs os name r ss rest,
  reads_file ts (mkObjFile libs os) (lit "o" :: name :: nl :: r) ->
  reads_body (count_objects no_counts os) (count_objects no_counts os) r ss rest ->
  reads_file ts (mkObjFile libs (os ++ [(name, ss)])) rest.
Proof.
  intros ts libs os name r ss rest H Hb. inversion H; subst.
  - eapply file_named; eauto. eapply reads_objects_snoc; eauto.
  - cbn [app]. eapply file_unnamed; eauto. eapply reads_objects_snoc; eauto.
Qed.

Definition open_file (ts : list bytes) (done : list (bytes * list statement)) (name : bytes)
    (ss : list statement) (rest : list bytes) : Prop :=
  exists libs, Forall drawable done /\
    (forall ss' rest', reads_body (counts_in done []) (counts_in done ss) rest ss' rest' ->
       reads_file ts (mkObjFile libs (done ++ [(name, ss ++ ss')])) rest') /\
    (forall c rest', fails_body (counts_in done []) (counts_in done ss) rest c rest' -> fails_file ts c rest').

Lemma reaches_sound : forall ts done cur rest, reaches ts done cur rest ->
  match cur with
  | None => exists libs, reads_file ts (mkObjFile libs done) rest /\ Forall drawable done
  | Some (name, ss) => open_file ts done name ss rest
  end.
Proof.
  intros ts done cur rest H.
  induction H as [libs rest H|rest H IH Hn|done name rest H IH|done [name ss] rest H IH|done name ss s mid rest H IH Hs|done [name ss] rest H IH He Hd].
  - exists libs. split; [|constructor]. eapply file_named; eauto. apply objects_end.
  - destruct IH as (libs & Hf & _). inversion Hf as [a1 a2 a3 a4 a5 Hl Ho|]; subst.
    assert (a3 = rest) by (inversion Ho; auto). subst a3. exists libs.
    split; [constructor|]. unfold counts_in. cbn. split.
    + intros ss' rest' Hb. eapply file_unnamed; eauto. apply objects_end.
    + intros c rest' Hb. eapply fails_first; eauto.
  - destruct IH as (libs & Hf & HF). exists libs. split; auto. unfold counts_in. cbn. split.
    + intros ss' rest' Hb. eapply reads_file_snoc; eauto.
    + intros c rest' Hb. eapply (fails_next _ (mkObjFile libs done)); eauto. now apply fails_named_body.
  - destruct IH as (libs & HF & H1 & H2). exists libs. split; auto. split.
    + intros ss' rest' Hb. apply H1. now apply body_blank.
    + intros c rest' Hb. apply H2. now apply fails_after_blank.
  - destruct IH as (libs & HF & H1 & H2). exists libs. split; auto.
    assert (E : counts_in done (ss ++ [s]) = count (counts_in done ss) s) by (unfold counts_in; apply count_all_app).
    rewrite E. split.
    + intros ss' rest' Hb. rewrite <- app_assoc. apply H1. eapply body_statement; eauto.
    + intros c rest' Hb. apply H2. eapply fails_after; eauto.
  - destruct IH as (libs & HF & H1 & H2). exists libs. split.
    + rewrite <- (app_nil_r ss). apply H1. now apply body_end.
    + apply Forall_app. auto.
Qed.

Lemma body_reaches : forall T done name ts ss' rest base now, reads_body base now ts ss' rest ->
  forall ss, base = counts_in done [] -> now = counts_in done ss ->
  reaches T done (Some (name, ss)) ts -> reaches T done (Some (name, ss ++ ss')) rest.
Proof.
  intros T done name ts ss' rest base now H.
  induction H as [now ts He|now ts ss' rest Hb IH|now ts s mid ss' rest Hs Hb IH]; intros ss Eb En Hr.
  - now rewrite app_nil_r.
  - apply IH; auto. now apply reaches_blank.
  - subst. change (s :: ss') with ([s] ++ ss'). rewrite app_assoc. apply IH; auto.
    + unfold counts_in. now rewrite count_all_app.
    + eapply reaches_statement; eauto.
Qed.

Lemma objects_reach : forall T c ts os rest, reads_objects c ts os rest ->
  forall done, c = counts_in done [] -> Forall drawable os -> reaches T done None ts -> reaches T (done ++ os) None rest.
Proof.
  intros T c ts os rest H. induction H as [c ts|c n ts ss m os rest Hb Ho IH]; intros done Ec HF Hr.
  - now rewrite app_nil_r.
  - inversion HF; subst. change ((n, ss) :: os) with ([(n, ss)] ++ os). rewrite app_assoc. apply IH; auto.
    + unfold counts_in, count_objects. rewrite fold_left_app. reflexivity.
    + eapply reaches_end; eauto.
      * apply (body_reaches T done n ts ss m _ _ Hb []); auto. now apply reaches_named.
      * eapply body_rest; eauto.
Qed.

Lemma file_reaches : forall ts f rest, reads_file ts f rest -> Forall drawable (file_objects f) ->
  reaches ts (file_objects f) None rest.
Proof.
  intros ts f rest H HF. inversion H; subst; cbn [file_objects] in *.
  - eapply (objects_reach _ _ _ _ _ H1 []); auto. eapply reaches_start; eauto.
  - inversion HF; subst. change (([], ss) :: os) with ([([], ss)] ++ os).
    eapply (objects_reach _ _ _ _ _ H3 [([], ss)]); auto.
    change [([], ss)] with ([] ++ [(@nil ascii, ss)]). eapply reaches_end; [|eapply body_rest; eauto|auto].
    apply (body_reaches ts [] [] mid ss mid' _ _ H2 []); auto. apply reaches_unnamed; auto. eapply reaches_start; eauto.
Qed.

Lemma fails_body_reaches : forall T done name base now ts c rest, fails_body base now ts c rest ->
  forall ss, base = counts_in done [] -> now = counts_in done ss -> reaches T done (Some (name, ss)) ts ->
  exists ss' mid, reaches T done (Some (name, ss')) mid /\
    fails_statement (counts_in done []) (counts_in done ss') mid c rest.
Proof.
  intros T done name base now ts c rest H.
  induction H as [now ts c rest H|now ts c rest H IH|now ts s mid c rest Hs H IH]; intros ss Eb En Hr.
  - subst. eauto.
  - apply (IH ss); auto. now apply reaches_blank.
  - subst. apply (IH (ss ++ [s])); auto.
    + unfold counts_in. now rewrite count_all_app.
    + eapply reaches_statement; eauto.
Qed.

(** * The three ways to end *)

Lemma fails_file_reaches : forall ts c rest, fails_file ts c rest <->
  (exists done name ss mid, reaches ts done (Some (name, ss)) mid /\
     fails_statement (counts_in done []) (counts_in done ss) mid c rest) \/
  (exists done mid, reaches ts done None mid /\ fails_header mid c rest).
Proof.
  intros ts c rest. split.
  - intros H. inversion H; subst.
    + left. exists [], []. eapply (fails_body_reaches ts [] [] _ _ _ _ _ H2 []); auto.
      apply reaches_unnamed; auto. eapply reaches_start; eauto.
    + pose proof (file_reaches _ _ _ H0 H1) as Hr. inversion H2; subst.
      * right. eauto.
      * left. exists (file_objects f), name.
        eapply (fails_body_reaches ts (file_objects f) name _ _ _ _ _ H3 []); auto. now apply reaches_named.
  - intros [(done & name & ss & mid & Hr & Hf)|(done & mid & Hr & Hf)]; apply reaches_sound in Hr.
    + destruct Hr as (libs & _ & _ & H). apply H. now apply fails_here.
    + destruct Hr as (libs & Hr & HF). eapply (fails_next _ (mkObjFile libs done)); eauto. now apply fails_named_header.
Qed.

Lemma panics_file_reaches : forall ts rest, panics_file ts rest <->
  exists done o, reaches ts done (Some o) rest /\ at_object_end rest /\ ~ drawable o.
Proof.
  intros ts rest. split.
  - intros (libs & os & o & H & HF & Hd). destruct o as [name ss]. exists os, (name, ss).
    assert (Hgen : exists mid, reaches ts os (Some (name, [])) mid /\ reads_body (counts_in os []) (counts_in os []) mid ss rest).
    { assert (Hsplit : forall c T os' R, reads_objects c T os' R -> forall os1, os' = os1 ++ [(name, ss)] ->
        exists mid, reads_objects c T os1 (lit "o" :: name :: nl :: mid) /\
          reads_body (count_objects c os1) (count_objects c os1) mid ss R).
      { intros c T os' R Ho. induction Ho as [c T|c n T ss' m os' R Hb Ho IH]; intros os1 E; [destruct os1; discriminate|].
        destruct os1 as [|o1 os1]; cbn in E; inversion E; subst.
        - inversion Ho; subst. exists T. split; auto. apply objects_end.
        - destruct (IH os1 eq_refl) as (mid & H1 & H2). exists mid. split; auto. eapply objects_more; eauto. }
      inversion H as [a1 a2 mid a4 a5 Hl Ho E1 E2 E3|a1 a2 mid ss0 mid' os0 a7 Hl Hn Hb Ho E1 E2 E3]; subst.
      - destruct (Hsplit _ _ _ _ Ho _ eq_refl) as (m & H4 & H5). exists m. split; auto.
        apply reaches_named. eapply (objects_reach _ _ _ _ _ H4 []); auto. eapply reaches_start; eauto.
      - destruct os as [|o1 os]; cbn [app] in *; match goal with K : ([], ss0) :: _ = _ |- _ => inversion K; subst end.
        + inversion Ho; subst. exists mid. split; auto. apply reaches_unnamed; auto. eapply reaches_start; eauto.
        + destruct (Hsplit _ _ _ _ Ho _ eq_refl) as (m & H6 & H7). exists m. split; auto.
          apply reaches_named. inversion HF; subst.
          change (([], ss0) :: os) with ([(@nil ascii, ss0)] ++ os).
          eapply (objects_reach _ _ _ _ _ H6 [([], ss0)]); auto.
          change [([], ss0)] with ([] ++ [(@nil ascii, ss0)]). eapply reaches_end; [|eapply body_rest; eauto|auto].
          apply (body_reaches ts [] [] mid ss0 mid' _ _ Hb []); auto. apply reaches_unnamed; auto. eapply reaches_start; eauto. }
    destruct Hgen as (mid & Hr & Hb). split; [|split; auto; eapply body_rest; eauto].
    apply (body_reaches ts os name mid ss rest _ _ Hb []); auto.
  - intros (done & [name ss] & Hr & He & Hd). apply reaches_sound in Hr. destruct Hr as (libs & HF & H & _).
    exists libs, done, (name, ss). split; auto. rewrite <- (app_nil_r ss). apply H. now apply body_end.
Qed.

Lemma reads_file_reaches : forall ts, (exists f, reads_file ts f [] /\ Forall drawable (file_objects f)) <->
  exists done, reaches ts done None [].
Proof.
  intros ts. split.
  - intros (f & H & HF). exists (file_objects f). now apply file_reaches.
  - intros (done & H). apply reaches_sound in H. destruct H as (libs & H & HF). exists (mkObjFile libs done). auto.
Qed.
