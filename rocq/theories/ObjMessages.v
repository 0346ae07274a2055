(** Proofs about the errors of [obj::parse] and what they say. *)
From Verif Require Import ObjModel MessageSpec LexerProofs ObjAccept ObjTop ObjMore.
Local Open Scope list_scope.

Lemma quoted_last : forall a t rest, quoted (a ++ [t]) rest t.
Proof. intros. left. now exists a. Qed.
#[local] Hint Resolve quoted_last : core.

Lemma not_float_explains : forall ts c rest, not_float ts c rest ->
  exists u, ts = u ++ rest /\ forall a, explains (a ++ u) rest c.
Proof.
  intros ts c rest H. destruct H as [|t rest H].
  - exists []. split; [reflexivity|]. intros a. now apply says_end.
  - exists [t]. split; [reflexivity|]. intros a. eapply says_float; auto.
    destruct (RustStd.parse_f64 t) as [x|] eqn:E; [|reflexivity]. now destruct (H x).
Qed.

Lemma bad_number_explains : forall base now p c a t rest, bad_number base now p c -> piece_of p t ->
  explains (a ++ [t]) rest c.
Proof.
  intros base now p c a t rest H Hp. destruct H as [p H|p z H Hz].
  - eapply says_integer; eauto.
  - eapply says_range; eauto. intros [K K'].
    apply (Hz (Z.to_nat z)); [lia|]. unfold in_scope. lia.
Qed.

Lemma ref_parts : forall t r ps, ref_token t r -> parts_of t ps ->
  (exists p ps', ps = p :: ps' /\ p <> []) /\ length ps <= 3.
Proof.
  assert (N : forall a k, number_token a k -> a <> [] /\ no_slash a).
  { intros a k H. split.
    - intros ->. discriminate H.
    - intros K. apply in_split in K. destruct K as (u & v & ->). unfold number_token in H.
      assert (D : forall x acc, digits_val acc (x ++ "/"%char :: v) = None).
      { induction x as [|c x IH]; intros acc; cbn [app digits_val]; [reflexivity|]. destruct (digit_val c); [apply IH|reflexivity]. }
      destruct u as [|c u]; cbn [app] in H; unfold RustStd.parse_isize in H.
      + cbn in H. rewrite ?(D []) in H. discriminate.
      + destruct (Ascii.eqb c "+").
        { destruct (u ++ "/"%char :: v) eqn:E; [destruct u; discriminate|]. rewrite <- E, D in H. discriminate. }
        destruct (Ascii.eqb c "-").
        { destruct (u ++ "/"%char :: v) eqn:E; [destruct u; discriminate|]. rewrite <- E, D in H. discriminate. }
        change (c :: u ++ "/"%char :: v) with ((c :: u) ++ "/"%char :: v) in H. rewrite D in H. discriminate. }
  assert (P : forall a k, part_token a k -> no_slash a).
  { intros a k H. destruct H as [|t k H]; [intros []|now apply (N t k)]. }
  intros t r ps H Hp. apply parts_split in Hp.
  assert (K : exists ps', parts_of t ps' /\ (exists p q, ps' = p :: q /\ p <> []) /\ length ps' <= 3).
  { destruct H as [a v Ha|a b v vt Ha Hb|a b c v vt vn Ha Hb Hc].
    - exists [a]. destruct (N _ _ Ha). repeat split; [discriminate|now constructor|now exists a, []|cbn; lia].
    - exists [a; b]. destruct (N _ _ Ha). pose proof (P _ _ Hb).
      repeat split; [discriminate|repeat constructor; eauto|now exists a, [b]|cbn; lia].
    - exists [a; b; c]. destruct (N _ _ Ha). pose proof (P _ _ Hb). pose proof (P _ _ Hc).
      repeat split; [discriminate|repeat constructor; eauto|now exists a, [b; c]|cbn; lia]. }
  destruct K as (ps' & K1 & K2 & K3). apply parts_split in K1. subst ps. now rewrite <- K1.
Qed.

Lemma bad_ref_explains : forall base now t c a rest, bad_ref base now t c -> explains (a ++ [t]) rest c.
Proof.
  intros base now t c a rest H.
  destruct H as [p ps c H [_ Hb]|p q ps c H _ [_ Hb]|p q r ps c H _ _ [_ Hb]|ps H _ _|p q r s ps H _ _ _].
  - eapply bad_number_explains; [exact Hb|]. right. exists (p :: ps). cbn. auto.
  - eapply bad_number_explains; [exact Hb|]. right. exists (p :: q :: ps). cbn. auto.
  - eapply bad_number_explains; [exact Hb|]. right. exists (p :: q :: r :: ps). cbn. auto.
  - apply says_reference; auto. intros r Hr. destruct (ref_parts _ _ _ Hr H) as [(p & ps' & E & K) _].
    injection E as <- _. now apply K.
  - apply says_reference; auto. intros r' Hr. destruct (ref_parts _ _ _ Hr H) as [_ K]. cbn in K. lia.
Qed.

Lemma refs_suffix' : forall base now ts rs rest, reads_refs base now ts rs rest -> exists u, ts = u ++ rest.
Proof.
  intros base now ts rs rest H. induction H as [|t rest H|t r ts rs rest H H' (u & ->)].
  - now exists [].
  - now exists [t].
  - now exists (t :: u).
Qed.

Lemma statement_explains : forall base now ts c rest, fails_statement base now ts c rest ->
  exists read, ts = read ++ rest /\ explains read rest c.
Proof.
  intros base now ts c rest H.
  destruct H as [ts c rest H|tx x ts c rest Hx H|tx x ty y ts c rest Hx Hy H|ts c rest H|ts c rest H
    |tx x ts c rest Hx H|tx x ty y ts c rest Hx Hy H| |t rest H| |
    |toks ks t c rest Hk Ht H|toks rs Hr Hl|toks rs t c rest Hr Hl H|ts rs rest Hr Hl Hf|ts rs rest Hr Hl
    |ts rs rest Hr Hl Hf|t ts Hk Hn Ho].
  1-7: destruct (not_float_explains _ _ _ H) as (u & -> & K).
  - exists ([lit "v"] ++ u). auto.
  - exists ([lit "v"; tx] ++ u). auto.
  - exists ([lit "v"; tx; ty] ++ u). auto.
  - exists ([lit "vt"] ++ u). auto.
  - exists ([lit "vn"] ++ u). auto.
  - exists ([lit "vn"; tx] ++ u). auto.
  - exists ([lit "vn"; tx; ty] ++ u). auto.
  - exists [lit "s"]. split; [reflexivity|]. now apply says_no_smoothing.
  - exists ([lit "s"] ++ [t]). split; [reflexivity|]. apply says_smoothing; auto.
    + intros ->. apply (H 0%N). constructor.
    + destruct (RustStd.parse_usize t) as [n|] eqn:E; [|reflexivity]. destruct (H n). now constructor.
  - exists [lit "usemtl"]. split; [reflexivity|]. now apply says_no_material.
  - exists [lit "p"]. split; [reflexivity|]. now apply says_end.
  - exists ((lit "p" :: toks) ++ [t]). split; [cbn; now rewrite <- app_assoc|].
    eapply bad_number_explains; [exact H|]. now left.
  - exists (lit "l" :: toks). split; [now rewrite app_nil_r|]. now apply says_end.
  - exists ((lit "l" :: toks) ++ [t]). split; [cbn; now rewrite <- app_assoc|].
    eapply bad_ref_explains, H.
  - destruct (refs_suffix' _ _ _ _ _ Hr) as [u ->]. exists (lit "l" :: u). split; [reflexivity|].
    apply says_line_form. now exists u.
  - destruct (refs_suffix' _ _ _ _ _ Hr) as [u ->]. exists (lit "f" :: u). split; [reflexivity|].
    apply says_few. now exists u.
  - destruct (refs_suffix' _ _ _ _ _ Hr) as [u ->]. exists (lit "f" :: u). split; [reflexivity|].
    apply says_face_form. now exists u.
  - exists []. split; [reflexivity|]. apply says_unknown.
    + right. split; [reflexivity|]. now exists ts.
    + intros [K|[K|K]]; [now apply Hn|now apply Ho|now apply Hk].
Qed.

Lemma header_explains : forall ts c rest, fails_header ts c rest ->
  exists read, ts = read ++ rest /\ explains read rest c.
Proof.
  intros ts c rest H. destruct H as [|name|name t rest H].
  - exists [lit "o"]. split; [reflexivity|]. now apply says_end.
  - exists [lit "o"; name]. split; [reflexivity|]. now apply says_end.
  - exists ([lit "o"; name] ++ [t]). split; [reflexivity|]. now apply says_tag.
Qed.

Lemma error_explained : forall dbg input e, fits input -> parse dbg input = Err e ->
  exists x y z tx read rest, input = x ++ y ++ z /\
    tokenizes x tx /\ tokenizes y read /\ tokenizes z rest /\ tokenizes input (tx ++ read ++ rest) /\
    err_line_number e = line_after (x ++ y) /\ explains read rest (err_kind e, err_message e).
Proof.
  intros dbg input e Hf H. destruct (error_place dbg input e Hf H) as (x & y & z & tx & ty & tz & E & T1 & T2 & T3 & T4 & F & L & _).
  exists x, y, z, tx, ty, tz. repeat (split; [assumption|]).
  assert (K : exists read, ty ++ tz = read ++ tz /\ explains read tz (err_kind e, err_message e)).
  { destruct F as [(d & n & ss & _ & F)|(d & _ & F)]; [eapply statement_explains, F|eapply header_explains, F]. }
  destruct K as (read & K1 & K2). apply app_inv_tail in K1. now subst.
Qed.

Lemma no_element_error : forall dbg input e, fits input -> parse dbg input = Err e ->
  err_kind e <> ElementMustBeAPointLineOrFace.
Proof.
  intros dbg input e Hf H K. destruct (error_explained _ _ _ Hf H) as (x & y & z & tx & read & rest & _ & _ & _ & _ & _ & _ & X).
  rewrite K in X. inversion X.
Qed.

(** A text for every kind of error but one. *)
Definition text_for (k : error_kind) : bytes :=
  match k with
  | EndOfFile => lit "v 1 2"
  | ExpectedTagStatement => lit "o a b"
  | ExpectedFloat => lit "v 1 2 x"
  | ExpectedInteger => lit "p x"
  | ExpectedVTNIndex => lit "l /"
  | VTNIndexOutOfRange => lit "p 1"
  | EveryFaceElementMustHaveAtLeastThreeVertices => lit "v 0 0 0 f 1 1"
  | EveryVTNIndexMustHaveTheSameFormForAGivenElement => lit "v 0 0 0 vt 0 vn 0 0 0 f 1 1 1/1"
  | InvalidObjectStatement => lit "vp 1"
  | ElementMustBeAPointLineOrFace => []
  | SmoothingGroupNameMustBeOffOrInteger => lit "s on"
  | SmoothingGroupDeclarationHasNoName => lit "s"
  | MaterialStatementHasNoName => lit "usemtl"
  end.

Lemma every_kind : forall k, k <> ElementMustBeAPointLineOrFace ->
  exists input, fits input /\ forall dbg, exists e, parse dbg input = Err e /\ err_kind e = k.
Proof.
  intros k Hk. exists (text_for k). split.
  - destruct k; (unfold fits; vm_compute; congruence).
  - intros dbg. destruct dbg; destruct k; try congruence; eexists; (split; [vm_compute; reflexivity|reflexivity]).
Qed.
