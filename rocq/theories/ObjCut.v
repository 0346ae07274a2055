(** Texts that are cut off at the end of a line. *)
From Verif Require Import ObjModel ObjErrorSpec ObjView PlaceSpec LexerProofs ConsumeProofs TextProofs ObjAccept ObjFile ObjTop
  ObjReach ObjUnique ObjMeaning ObjExtend ObjFacts ObjMore ObjProps ObjState Places Lines.
Local Open Scope list_scope.

Section Cut.
  (** What is cut off. *)
  Variable v : list bytes.

  Definition cuts {A} (R : list bytes -> A -> list bytes -> Prop) : Prop :=
    forall u x m, R (u ++ v) x (m ++ v) -> R u x m.

  Lemma app_same : forall (a b : list bytes), a ++ v = b ++ v -> a = b.
  Proof. intros a b E. now apply app_inv_tail in E. Qed.

  Lemma suffix_app : forall (u w m : list bytes), u ++ v = w ++ m ++ v -> u = w ++ m.
  Proof. intros u w m E. rewrite app_assoc in E. now apply app_same. Qed.

  Lemma suffix_long : forall (w m : list bytes) t, v = t :: w ++ m ++ v -> False.
  Proof. intros w m t E. apply (f_equal (@length bytes)) in E. cbn in E. rewrite !app_length in E. lia. Qed.

  Lemma line_cut : cuts reads_line.
  Proof.
    intros u names m H. remember (u ++ v) as T eqn:ET. remember (m ++ v) as R eqn:ER. destruct H as [names Hn|names rest Hn].
    - symmetry in ER. apply app_eq_nil in ER. destruct ER as [-> Ev]. rewrite Ev in ET. rewrite app_nil_r in ET. subst u. now constructor.
    - subst rest. replace u with (names ++ nl :: m) by (apply app_same; rewrite ET || rewrite <- ET; now rewrite <- app_assoc). now constructor.
  Qed.

  Lemma optional_cut : forall d, cuts (reads_optional d).
  Proof.
    intros d u x m H. remember (u ++ v) as T eqn:ET. remember (m ++ v) as R eqn:ER. destruct H as [t x rest Ht|t rest Ht|].
    - destruct u as [|t' u]; cbn in ET.
      + exfalso. subst rest. apply (suffix_long [] m t). now symmetry in ET.
      + injection ET as <- E. replace m with u by (apply app_same; congruence). now constructor.
    - rewrite ET in ER. apply app_same in ER. subst m. destruct u as [|t' u]; [constructor|]. injection ET as <- _. now constructor.
    - symmetry in ET, ER. apply app_eq_nil in ET, ER. destruct ET as [-> _], ER as [-> _]. constructor.
  Qed.

  Lemma refs_cut : forall base now, cuts (reads_refs base now).
  Proof.
    intros base now u x m H. remember (u ++ v) as T eqn:ET. remember (m ++ v) as R eqn:ER. revert u ET m ER.
    induction H as [|t rest Ht|t r ts rs rest Ht H IH]; intros u ET m ER.
    - symmetry in ET, ER. apply app_eq_nil in ET, ER. destruct ET as [-> _], ER as [-> _]. constructor.
    - destruct u as [|t' u]; cbn in ET.
      + exfalso. subst rest. apply (suffix_long [] m t). now symmetry in ET.
      + injection ET as <- E. replace m with u by (apply app_same; congruence). now constructor.
    - destruct u as [|t' u]; cbn in ET.
      + exfalso. destruct (refs_ends _ _ _ _ _ H) as (w & E & _). subst rest. apply (suffix_long w m t). congruence.
      + injection ET as <- E. constructor; auto.
  Qed.

  (** The tokens in front are not cut off. *)
  Lemma front : forall pre ts u m w, pre ++ ts = u ++ v -> ts = w ++ m ++ v -> exists u', u = pre ++ u' /\ ts = u' ++ v.
  Proof.
    intros pre ts u m w E ->. exists (w ++ m). split; [|now rewrite <- app_assoc].
    apply app_same. rewrite <- E, <- !app_assoc. reflexivity.
  Qed.

  Lemma statement_cut : forall base now, cuts (reads_statement base now).
  Proof.
    intros base now u s m H. remember (u ++ v) as T eqn:ET. remember (m ++ v) as R eqn:ER.
    destruct H as [tx ty tz ts x y z w rest Hx Hy Hz Ho|tu ts u' v' mid w rest Hu Hv Hw|tx ty tz x y z rest Hx Hy Hz|ts names rest Hl
      |t n rest Ht|name rest|ts toks ks rest Hl Hp Hk|ts rs rest Hr Hlen Hf|ts rs rest Hr Hlen Hf]; subst rest.
    - destruct (optional_ends _ _ _ _ Ho) as (q & E & _).
      destruct (front [lit "v"; tx; ty; tz] _ _ _ _ ET E) as (u' & -> & ->). constructor; auto. now apply optional_cut.
    - destruct (optional_ends _ _ _ _ Hw) as (q & E & _). destruct (optional_ends _ _ _ _ Hv) as (q' & E' & _).
      destruct (front [lit "vt"; tu] ts u m (q' ++ q) ET) as (u0 & -> & ->).
      { rewrite E', E. now rewrite <- !app_assoc. }
      subst mid. rewrite app_assoc in Hv, Hw. econstructor; eauto; [apply optional_cut; exact Hv|apply optional_cut; exact Hw].
    - destruct (front [lit "vn"; tx; ty; tz] _ _ m [] ET eq_refl) as (u' & -> & E). apply app_same in E. subst u'. now constructor.
    - destruct (line_suffix _ _ _ Hl) as (q & E). destruct (front [lit "g"] _ _ _ _ ET E) as (u' & -> & ->). constructor. now apply line_cut.
    - destruct (front [lit "s"; t] _ _ m [] ET eq_refl) as (u' & -> & E). apply app_same in E. subst u'. now constructor.
    - destruct (front [lit "usemtl"; name] _ _ m [] ET eq_refl) as (u' & -> & E). apply app_same in E. subst u'. now constructor.
    - destruct (line_suffix _ _ _ Hl) as (q & E). destruct (front [lit "p"] _ _ _ _ ET E) as (u' & -> & ->). econstructor; eauto. now apply line_cut.
    - destruct (refs_ends _ _ _ _ _ Hr) as (q & E & _). destruct (front [lit "l"] _ _ _ _ ET E) as (u' & -> & ->). constructor; auto. now apply refs_cut.
    - destruct (refs_ends _ _ _ _ _ Hr) as (q & E & _). destruct (front [lit "f"] _ _ _ _ ET E) as (u' & -> & ->). constructor; auto. now apply refs_cut.
  Qed.

  Lemma libraries_cut : cuts reads_libraries.
  Proof.
    intros u libs m H. remember (u ++ v) as T eqn:ET. remember (m ++ v) as R eqn:ER. revert u ET m ER.
    induction H as [ts libs rest H IH|ts names mid libs rest Hl H IH|ts He]; intros u ET m ER.
    - destruct (libraries_suffix _ _ _ H) as (q & E). subst rest.
      destruct (front [nl] _ _ _ _ ET E) as (u' & -> & E'). constructor. auto.
    - destruct (libraries_suffix _ _ _ H) as (q & E). subst rest. destruct (line_suffix _ _ _ Hl) as (q' & E').
      destruct (front [lit "mtllib"] ts u m (q' ++ q) ET) as (u' & -> & ->); [rewrite E', E; now rewrite <- !app_assoc|].
      rewrite app_assoc in E. apply (libraries_line _ _ (q ++ m)).
      + apply line_cut. now rewrite <- E.
      + apply IH; auto.
    - rewrite ET in ER. apply app_same in ER. subst m. constructor. rewrite ET in He. destruct u; auto.
  Qed.

  Lemma some_libraries_cut : cuts some_libraries.
  Proof.
    assert (S : forall ts libs rest, some_libraries ts libs rest -> exists q, ts = q ++ rest).
    { intros ts libs rest H. induction H as [ts|ts libs rest H (q & ->)|ts names mid libs rest Hl H (q & ->)].
      - exists []. auto.
      - exists (nl :: q). auto.
      - destruct (line_suffix _ _ _ Hl) as (q' & ->). exists (lit "mtllib" :: q' ++ q). cbn. now rewrite <- app_assoc. }
    intros u libs m H. remember (u ++ v) as T eqn:ET. remember (m ++ v) as R eqn:ER. revert u ET m ER.
    induction H as [ts|ts libs rest H IH|ts names mid libs rest Hl H IH]; intros u ET m ER.
    - rewrite ET in ER. apply app_same in ER. subst m. constructor.
    - destruct (S _ _ _ H) as (q & E). subst rest.
      destruct (front [nl] _ _ _ _ ET E) as (u' & -> & E'). constructor. auto.
    - destruct (S _ _ _ H) as (q & E). subst rest. destruct (line_suffix _ _ _ Hl) as (q' & E').
      destruct (front [lit "mtllib"] ts u m (q' ++ q) ET) as (u' & -> & ->); [rewrite E', E; now rewrite <- !app_assoc|].
      rewrite app_assoc in E. apply (some_line _ _ (q ++ m)).
      + apply line_cut. now rewrite <- E.
      + apply IH; auto.
  Qed.

  Lemma end_cut : forall m, at_object_end (m ++ v) -> at_object_end m.
  Proof. intros [|t m] H; auto. exact I. Qed.

  Lemma reaches_cut : forall T done cur r, reaches T done cur r -> forall u m, T = u ++ v -> r = m ++ v ->
    reaches u done cur m \/ (m = [] /\ cur = Some ([], []) /\ done = [] /\ reaches u [] None []).
  Proof.
    intros T done cur r H.
    induction H as [libs rest H|rest H IH Hn|done name rest H IH|done [name ss] rest H IH|done name ss s mid rest H IH Hs|done [name ss] rest H IH He Hd];
      intros u m ET ->.
    - left. subst T. apply (reaches_start _ libs). now apply libraries_cut.
    - destruct (IH u m ET eq_refl) as [K|(_ & K & _)]; [|discriminate]. destruct m as [|t m].
      + right. auto.
      + left. apply reaches_unnamed; auto.
    - left. destruct (IH u (lit "o" :: name :: nl :: m) ET eq_refl) as [K|(K & _)]; [|discriminate]. now apply reaches_named.
    - left. destruct (IH u (nl :: m) ET eq_refl) as [K|(K & _)]; [|discriminate]. now apply reaches_blank.
    - left. destruct (statement_ends _ _ _ _ _ Hs) as (q & -> & _ & Hq). rewrite app_assoc in *.
      destruct (IH u (q ++ m) ET eq_refl) as [K|(K & _)]; [|apply app_eq_nil in K; tauto].
      eapply reaches_statement; eauto. now apply statement_cut.
    - left. destruct (IH u m ET eq_refl) as [K|(_ & K & _)]; [|injection K as -> ->; exfalso].
      + apply reaches_end; auto. now apply end_cut.
      + revert Hd. unfold drawable. cbn. firstorder.
  Qed.

  Lemma reaches_libraries_cut : forall T done cur r, reaches T done cur r -> forall u m, T = u ++ v -> r = m ++ v ->
    exists libs x y, reads_libraries T libs x /\ reads_libraries u libs y.
  Proof.
    intros T done cur r H.
    induction H as [libs rest H|rest H IH Hn|done name rest H IH|done [name ss] rest H IH|done name ss s mid rest H IH Hs|done [name ss] rest H IH He Hd];
      intros u m ET ->.
    - exists libs, (m ++ v), m. split; auto. subst T. now apply libraries_cut.
    - eauto.
    - apply (IH u (lit "o" :: name :: nl :: m)); auto.
    - apply (IH u (nl :: m)); auto.
    - destruct (statement_suffix _ _ _ _ _ Hs) as (q & E). apply (IH u (q ++ m)); auto. now rewrite <- app_assoc.
    - eauto.
  Qed.
End Cut.

(** * Files *)

Lemma some_libraries_all : forall ts libs rest, some_libraries ts libs rest -> rest = [] -> reads_libraries ts libs [].
Proof.
  intros ts libs rest H. induction H as [ts|ts libs rest H IH|ts names mid libs rest Hl H IH]; intros ->.
  - constructor. exact I.
  - constructor. auto.
  - econstructor; eauto.
Qed.

Lemma some_libraries_part : forall ts libs rest, some_libraries ts libs rest -> forall libs' rest', reads_libraries ts libs' rest' ->
  exists more, libs' = libs ++ more.
Proof.
  intros ts libs rest H. induction H as [ts|ts libs rest H IH|ts names mid libs rest Hl H IH]; intros libs' rest' K.
  - exists libs'. auto.
  - inversion K as [? ? ? K1|? ? ? ? ? K1 K2|? K1]; subst; eauto. destruct K1 as [K1 _]. congruence.
  - inversion K as [? ? ? K1|? ? ? ? ? K1 K2|? K1]; subst.
    + destruct (line_det _ _ _ _ _ Hl K1) as [<- <-]. destruct (IH _ _ K2) as (more & ->). exists more. now rewrite app_assoc.
    + destruct K1 as [_ K1]. congruence.
Qed.

Lemma file_libraries_read : forall T f, reads_file T f [] -> exists mid, reads_libraries T (file_libraries f) mid.
Proof. intros T f H. inversion H; subst; eauto. Qed.

Lemma file_cut : forall T f u v, reads_file T f [] -> T = u ++ v -> between T v ->
  exists f', cut_file f f' /\ reads_file u f' [] /\
    (Forall drawable (file_objects f') \/ exists os o, file_objects f' = os ++ [o] /\ Forall drawable os /\ ~ drawable o).
Proof.
  intros T f u v Hf ET [(libs & K)|(done & cur & K)].
  - destruct (file_libraries_read _ _ Hf) as (mid & Hl). destruct (some_libraries_part _ _ _ K _ _ Hl) as (more & El).
    destruct f as [L os]. cbn in El. subst L. exists (mkObjFile libs []). split; [constructor|]. split; [|left; constructor].
    eapply file_named; [|apply objects_end]. rewrite ET in K. apply (some_libraries_all u libs []); auto. now apply (some_libraries_cut v u libs []).
  - destruct (reaches_libraries_cut v _ _ _ _ K u [] ET eq_refl) as (libs & x & y & L1 & L2).
    destruct (file_libraries_read _ _ Hf) as (mid & Hl). destruct (libraries_det _ _ _ L1 _ _ Hl) as [El _].
    pose proof (reaches_file _ _ _ _ K _ Hf) as R.
    assert (HL : forall f', reads_file u f' [] -> file_libraries f' = file_libraries f).
    { intros f' H. destruct (file_libraries_read _ _ H) as (mid' & Hl'). destruct (libraries_det _ _ _ L2 _ _ Hl'). congruence. }
    destruct (reaches_cut v _ _ _ _ K u [] ET eq_refl) as [K'|(_ & -> & -> & K')]; pose proof (reaches_sound _ _ _ _ K') as S.
    + destruct cur as [[n ss]|].
      * destruct S as (libs' & HF & S1 & _). specialize (S1 [] [] ltac:(now constructor)). rewrite app_nil_r in S1.
        destruct R as (ss' & mid' & more & E & _). pose proof (HL _ S1) as E2. cbn in E2. subst libs'.
        exists (mkObjFile (file_libraries f) (done ++ [(n, ss)])). split; [|split; [exact S1|]].
        -- destruct f as [L os]. cbn in *. subst os. constructor.
        -- cbn. destruct (Exists_dec (fun s => is_element s = true \/ exists m, s = SUse m) ss) as [D|D].
           { intros []; cbn; try (right; intros [C|(m & C)]; discriminate C); left; eauto. }
           ++ left. apply Forall_app. split; auto. constructor; [|constructor]. apply Exists_exists in D. exact D.
           ++ right. exists done, (n, ss). split; auto. split; auto. intros C. apply D. apply Exists_exists. exact C.
      * destruct S as (libs' & S1 & HF). destruct R as (more & E & _). pose proof (HL _ S1) as E2. cbn in E2. subst libs'.
        exists (mkObjFile (file_libraries f) done). split; [|split; [exact S1|left; exact HF]].
        destruct f as [L os]. cbn in *. subst os. constructor.
    + destruct S as (libs' & S1 & HF). pose proof (HL _ S1) as E2. cbn in E2. subst libs'.
      exists (mkObjFile (file_libraries f) []). split; [|split; [exact S1|left; exact HF]].
      destruct f as [L os]. cbn in *. apply (cut_between L [] os).
Qed.

Lemma fits_cut : forall a b, fits (a ++ LF :: b) -> fits (a ++ [LF]).
Proof. intros a b. unfold fits. rewrite !app_length. cbn. lia. Qed.

(** Cut behind a line end. *)
Theorem cut_text : forall a b f ts, says (a ++ LF :: b) f -> Forall drawable (file_objects f) -> fits (a ++ LF :: b) ->
  tokenizes a ts -> (forall before, ts <> before ++ [lit "o"]) ->
  exists f', cut_file f f' /\ says (a ++ [LF]) f' /\
    ((Forall drawable (file_objects f') /\ parse false (a ++ [LF]) = Ok (file_means f')) \/
     (~ Forall drawable (file_objects f') /\ parse false (a ++ [LF]) = Panic PanicIndex)).
Proof.
  intros a b f ts (T & HT & Hf) HF Hfits Ha Ho.
  rewrite (tokenizes_det _ _ _ HT (tokenizes_newline _ _ _ _ Ha (lex_tokenizes b))) in Hf.
  assert (H1 : tokenizes (a ++ [LF]) (ts ++ [nl])) by (apply tokenizes_newline; [exact Ha|constructor]).
  destruct (file_lines _ _ _ Hf HF) as [K|(before & rest' & done & E & _)]; [|destruct (Ho _ E)].
  destruct (file_cut _ _ (ts ++ [nl]) (lex b) Hf) as (f' & Hc & Hr & D); [now rewrite <- app_assoc|exact K|].
  exists f'. split; auto. split; [exists (ts ++ [nl]); auto|]. destruct D as [D|(os & o & E & D & D')].
  - left. split; auto. apply parse_says_iff; [eapply fits_cut; eauto|]. exists f'. split; [exists (ts ++ [nl]); auto|]. auto.
  - right. split.
    + rewrite E. intros C. apply Forall_app in C. destruct C as [_ C]. inversion C. auto.
    + apply parse_panic_iff; [eapply fits_cut; eauto|]. split; auto. exists (ts ++ [nl]), []. split; auto.
      destruct f' as [L os']. cbn in E. subst os'. exists L, os, o. auto.
Qed.

(** * Results *)

Lemma declared_front : forall A (decl : statement -> list A) d, (forall s, is_element s = true -> decl s = []) ->
  forall ss' ss, prefix (declared decl d (ss ++ ss')) (declared decl d ss).
Proof.
  intros A decl d Hd. induction ss' as [|s ss' IH]; intros ss.
  - exists []. now rewrite !app_nil_r.
  - replace (ss ++ s :: ss') with ((ss ++ [s]) ++ ss') by (now rewrite <- app_assoc). destruct (IH (ss ++ [s])) as (more & ->).
    rewrite declared_app_nonempty by exact Hd. destruct (is_element s).
    + destruct (declared decl d ss); unfold prefix; cbn; eauto.
    + rewrite <- app_assoc. unfold prefix. eauto.
Qed.

Lemma shapes_front : forall base ss ss' before i, prefix (shapes_from before base (ss ++ ss') i) (shapes_from before base ss i).
Proof.
  intros base ss ss'. induction ss as [|s ss IH]; intros before i; cbn.
  - eexists. reflexivity.
  - destruct (IH (before ++ [s]) (i + length (elements_of base s))) as (more & ->). rewrite app_assoc. unfold prefix. eauto.
Qed.

Lemma object_front : forall base n ss ss', front_of (object_of base n (ss ++ ss')) (object_of base n ss).
Proof.
  intros base n ss ss'. unfold front_of, object_of; cbn.
  unfold all_vertices, all_texture_vertices, all_normals, all_elements, all_groups, all_smoothing_groups. rewrite !flat_map_app.
  repeat split; try (unfold prefix; now eauto); try (apply declared_front; intros []; discriminate || reflexivity). apply shapes_front.
Qed.

Lemma means_front : forall f f', cut_file f f' -> front_set (file_means f) (file_means f').
Proof.
  intros f f' H. destruct H; unfold file_means; cbn.
  - constructor.
  - rewrite objects_of_app. constructor.
  - rewrite !objects_of_app. cbn. constructor. apply object_front.
Qed.

Theorem cut_result : forall dbg a b set ts, fits (a ++ LF :: b) -> parse dbg (a ++ LF :: b) = Ok set ->
  tokenizes a ts -> (forall before, ts <> before ++ [lit "o"]) ->
  parse false (a ++ [LF]) = Panic PanicIndex \/ exists set', parse false (a ++ [LF]) = Ok set' /\ front_set set set'.
Proof.
  intros dbg a b set ts Hf P Ha Ho. apply parse_debug_ok in P. apply parse_says_iff in P; auto. destruct P as (f & Hs & HF & ->).
  destruct (cut_text _ _ _ _ Hs HF Hf Ha Ho) as (f' & Hc & _ & [(_ & P)|(_ & P)]); auto. right. exists (file_means f'). split; auto.
  now apply means_front.
Qed.
