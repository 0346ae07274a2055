(** docs/mtl_spec.md and [mtl::parse]. *)
From Verif Require Import MtlModel SourceProofs ConsumeProofs LexerProofs TotalProofs MtlSpec MtlRun TextProofs MtlTop
  MtlFacts DocMtlSpec.
Local Open Scope list_scope.

Lemma nl_not_number : forall x, ~ float_token nl x.
Proof. intros x H. vm_compute in H. discriminate. Qed.

Lemma number_not_word : forall w, is_number w -> ~ keyword w /\ w <> nl /\ w <> lit "newmtl".
Proof.
  intros w (x & H). repeat split.
  - intros K. apply keyword_words in K. cbn in K.
    repeat destruct K as [<-|K]; try (vm_compute in H; discriminate). destruct K.
  - intros ->. vm_compute in H. discriminate.
  - intros ->. vm_compute in H. discriminate.
Qed.

(** The parser reads the first word of an option as the name of the map, and
    then it does not know the argument of the option. *)
Lemma option_fails : forall o, option_ok o -> exists w v rest, option_words o = w :: v :: rest /\
  ~ keyword v /\ v <> nl /\ v <> lit "newmtl".
Proof.
  assert (K : forall v, In v (map lit ["on"; "off"; "r"; "g"; "b"; "m"; "l"; "z"]%string) ->
    ~ keyword v /\ v <> nl /\ v <> lit "newmtl").
  { intros v H. cbn [map In] in H.
    repeat destruct H as [<-|H]; [..|destruct H]; (split; [|split; discriminate]);
      intro C; apply keyword_words in C; cbn in C; repeat destruct C as [C|C]; discriminate || destruct C. }
  intros o [w on H|c H|w v H Hv|v v' Hv Hv'|w v vs H Hv Hvs Hl].
  - eexists _, _, _. split; [reflexivity|]. apply K. destruct on; cbn; tauto.
  - eexists _, _, _. split; [reflexivity|]. apply K. apply in_map_iff. exists c. split; auto.
    cbn in H |- *. tauto.
  - eexists _, _, _. split; [reflexivity|]. now apply number_not_word.
  - eexists _, _, _. split; [reflexivity|]. now apply number_not_word.
  - eexists _, _, _. split; [reflexivity|]. now apply number_not_word.
Qed.

Lemma unknown_word : forall w, ~ In w words -> w <> nl -> w <> lit "newmtl" -> forall ts,
  exists c, fails_setting (w :: ts) c (w :: ts).
Proof. intros w H Hn Hm ts. eexists. apply fails_unknown; auto. now rewrite keyword_words. Qed.

Ltac not_in := let C := fresh in intro C; cbn in C; repeat destruct C as [C|C]; discriminate || destruct C.

Definition stops (ts : list bytes) : Prop :=
  exists ss pre from c rest, ts = pre ++ from /\ says_settings ss pre /\ fails_setting from c rest.

Lemma stops_now : forall ts c rest, fails_setting ts c rest -> stops ts.
Proof. intros ts c rest H. exists [], [], ts, c, rest. repeat split; auto. constructor. Qed.

Lemma color_of_word : forall k, k <> Filter_Tf -> exists f, reflectivity_word k = color_word f.
Proof. intros [] H; [exists Ka|exists Kd|exists Ks|congruence]; reflexivity. Qed.

Lemma texture_of_word : forall k, exists f, map_word f (texture_word k).
Proof. intros []; eexists; constructor. Qed.

Lemma filter_cases : forall k, k = Filter_Tf \/ k <> Filter_Tf.
Proof. intros []; auto; right; discriminate. Qed.

Lemma color_word_fails : forall k c rest ts, not_float ts c rest -> stops (reflectivity_word k :: ts).
Proof.
  intros k c rest ts H. destruct (filter_cases k) as [->|Hk].
  - destruct (unknown_word (lit "Tf") ltac:(not_in) ltac:(discriminate) ltac:(discriminate) ts) as (c' & Hf).
    eapply stops_now. exact Hf.
  - destruct (color_of_word k Hk) as (f & ->). eapply stops_now. apply fails_r. exact H.
Qed.

(** A documented statement is either read as documented or stops the parser. *)
Lemma statement_cases : forall s, documented s ->
  (supported s /\ exists t, statement_says s t /\ says t (statement_line s)) \/
  (~ supported s /\ forall rest, stops (statement_line s ++ nl :: rest)).
Proof.
  intros s H.
  destruct H as [k r gb Hr Hgb Hl|k f factor Hf Hfa Hl|k x yz Hx Hyz Hl|w n Hw Hn|halo x Hx|x Hx|x Hx|x Hx|k os f Ho Hf| |os f Ho Hf|side os f Hs Ho Hf].
  - destruct (filter_cases k) as [->|Hk].
    { right. split; [intros [? _]; congruence|]. intro rest. cbn [statement_line reflectivity_word app].
      destruct (unknown_word (lit "Tf") ltac:(not_in) ltac:(discriminate) ltac:(discriminate) ((r :: gb) ++ nl :: rest)) as (c' & H').
      eapply stops_now. exact H'. }
    destruct (color_of_word k Hk) as (f & Ef). destruct Hr as (x & Hr). cbn [statement_line supported]. rewrite Ef.
    destruct gb as [|g [|b [|]]]; [right|right|left|cbn in Hl; lia].
    + split; [intros [_ ?]; discriminate|]. intro rest. eapply stops_now. cbn [app].
      eapply fails_g; [exact Hr|apply float_wrong; apply nl_not_number].
    + inversion_clear Hgb as [|? ? (y & Hg)]. split; [intros [_ ?]; discriminate|]. intro rest. eapply stops_now. cbn [app].
      eapply fails_b; [exact Hr|exact Hg|apply float_wrong; apply nl_not_number].
    + inversion_clear Hgb as [|? ? (y & Hg) Hgb']. inversion_clear Hgb' as [|? ? (z & Hb)].
      split; [auto|]. exists (SetColor f (mkColor x y z)). split; constructor; auto.
  - right. split; [intros []|]. intro rest. cbn [statement_line app]. eapply color_word_fails.
    apply float_wrong. intros x Hx. vm_compute in Hx. discriminate.
  - right. split; [intros []|]. intro rest. cbn [statement_line app]. eapply color_word_fails.
    apply float_wrong. intros y Hy. vm_compute in Hy. discriminate.
  - destruct (N.le_gt_cases n 2) as [Hle|Hgt].
    + left. split; [exists n; auto|].
      assert (E : n = 0%N \/ n = 1%N \/ n = 2%N) by lia.
      destruct E as [->|[->| ->]]; eexists; split; econstructor; eauto; constructor.
    + right. split; [intros (n' & E & ?); rewrite Hw in E; inversion E; subst; lia|].
      intro rest. eapply stops_now. cbn [statement_line app]. eapply fails_illum; eauto.
      intros i Hi. destruct Hi; lia.
  - destruct halo; [right|left].
    + split; [discriminate|]. intro rest. cbn [statement_line app]. eapply stops_now. apply (fails_number D).
      apply float_wrong. intros y Hy. vm_compute in Hy. discriminate.
    + destruct Hx as (v & Hx). split; [reflexivity|]. exists (SetNumber D v). split; [now constructor|].
      apply (says_number D). exact Hx.
  - destruct Hx as (v & Hx). left. split; [exact I|]. exists (SetNumber Ns v). split; [now constructor|].
    apply (says_number Ns). exact Hx.
  - right. split; [intros []|]. intro rest. cbn [statement_line app].
    destruct (unknown_word (lit "sharpness") ltac:(not_in) ltac:(discriminate) ltac:(discriminate) (x :: nl :: rest)) as (c' & H').
    eapply stops_now. exact H'.
  - destruct Hx as (v & Hx). left. split; [exact I|]. exists (SetNumber Ni v). split; [now constructor|].
    apply (says_number Ni). exact Hx.
  - destruct (texture_of_word k) as (m & Hm). destruct os as [|o os].
    + left. split; [reflexivity|]. exists (SetMap m f). split; [now constructor|]. cbn. now constructor.
    + right. split; [discriminate|]. intro rest. inversion_clear Ho as [|? ? Ho1 _].
      destruct (option_fails o Ho1) as (w & v & r & E & Hk & Hn & Hw).
      cbn [statement_line flat_map]. rewrite E. cbn [app].
      exists [SetMap m w], [texture_word k; w]. eexists _, _, _. split; [reflexivity|]. split.
      * apply (settings_more _ [texture_word k; w] [] []); constructor. exact Hm.
      * now apply fails_unknown.
  - right. split; [intros []|]. intro rest. cbn [statement_line app].
    destruct (unknown_word (lit "map_aat") ltac:(not_in) ltac:(discriminate) ltac:(discriminate) (lit "on" :: nl :: rest)) as (c' & H').
    eapply stops_now. exact H'.
  - right. split; [intros []|]. intro rest. cbn [statement_line app].
    eapply (fun ts => let (c', H') := unknown_word (lit "refl") ltac:(not_in) ltac:(discriminate) ltac:(discriminate) ts in stops_now _ _ _ H').
  - right. split; [intros []|]. intro rest. cbn [statement_line app].
    eapply (fun ts => let (c', H') := unknown_word (lit "refl") ltac:(not_in) ltac:(discriminate) ltac:(discriminate) ts in stops_now _ _ _ H').
Qed.

(** * Lines *)

Lemma blanks_app : forall a b l, with_blanks (a ++ b) l -> exists l1 l2, l = l1 ++ l2 /\ with_blanks a l1 /\ with_blanks b l2.
Proof.
  intros a b l H. remember (a ++ b) as ab eqn:E. revert a E.
  induction H as [|ls ls' H IH|x ls ls' H IH]; intros a E.
  - symmetry in E. apply app_eq_nil in E as [-> ->]. exists [], []. repeat split; constructor.
  - destruct (IH a E) as (l1 & l2 & -> & H1 & H2). exists ([] :: l1), l2. repeat split; auto. now constructor.
  - destruct a as [|y a].
    + cbn in E. subst b. exists [], (x :: ls'). repeat split; try constructor. exact H.
    + cbn in E. inversion E; subst. destruct (IH a eq_refl) as (l1 & l2 & -> & H1 & H2).
      exists (y :: l1), l2. repeat split; auto. now constructor.
Qed.

Lemma line_tokens_app : forall a b, line_tokens (a ++ b) = line_tokens a ++ line_tokens b.
Proof. intros. apply flat_map_app. Qed.

Lemma stops_blank : forall ts, stops ts -> stops (nl :: ts).
Proof.
  intros ts (ss & pre & from & c & rest & -> & H & Hf). exists ss, (nl :: pre), from, c, rest. repeat split; auto. now constructor.
Qed.

Lemma settings_lines : forall sts ls, with_blanks (map statement_line sts) ls -> Forall documented sts ->
  (Forall supported sts /\ exists ss, Forall2 statement_says sts ss /\ says_settings ss (line_tokens ls)) \/
  (~ Forall supported sts /\ forall rest, stops (line_tokens ls ++ rest)).
Proof.
  intros sts ls H. remember (map statement_line sts) as ml eqn:E. revert sts E.
  induction H as [|ml ls H IH|x ml ls H IH]; intros sts E Hd.
  - destruct sts; [|discriminate]. left. split; auto. exists []. split; constructor.
  - destruct (IH sts E Hd) as [[Hs (ss & H1 & H2)]|[Hs Hr]].
    + left. split; auto. exists ss. split; auto. now apply (settings_blank ss (line_tokens ls)).
    + right. split; auto. intro rest. apply (stops_blank (line_tokens ls ++ rest)). apply Hr.
  - destruct sts as [|s sts]; [discriminate|]. cbn in E. inversion E; subst. clear E.
    inversion_clear Hd as [|? ? Hd1 Hd2]. specialize (IH sts eq_refl Hd2).
    change (line_tokens (statement_line s :: ls)) with ((statement_line s ++ [nl]) ++ line_tokens ls).
    rewrite <- app_assoc.
    destruct (statement_cases s Hd1) as [[Hs (t & Ht & Hw)]|[Hs Hr]].
    + destruct IH as [[Hss (ss & H1 & H2)]|[Hss Hr]].
      * left. split; auto. exists (t :: ss). split; auto. apply settings_more; auto. cbn. now constructor.
      * right. split; [intro C; inversion C; auto|]. intro rest. specialize (Hr rest).
        destruct Hr as (ss & pre & from & c & r & Er & H1 & H2). rewrite <- !app_assoc. cbn [app].
        unfold stops. exists (t :: ss), (statement_line s ++ nl :: pre), from, c, r. split; [|split; auto].
        -- rewrite Er. rewrite <- app_assoc. reflexivity.
        -- apply settings_more; auto. now constructor.
    + right. split; [intro C; inversion C; auto|]. intro rest. rewrite <- !app_assoc. apply Hr.
Qed.

Lemma settings_blanks : forall n ss ts, says_settings ss ts -> says_settings ss (ts ++ repeat nl n).
Proof.
  intros n ss ts H. rewrite <- (app_nil_r ss). apply settings_app; auto.
  clear H. induction n; cbn; constructor; auto.
Qed.

Definition stops_file (ts : list bytes) : Prop :=
  exists n f tsf name us, ts = repeat nl n ++ tsf ++ lit "newmtl" :: name :: us /\ says_materials f tsf /\ stops us.

Lemma materials_lines : forall d ls, with_blanks (file_lines d) ls -> documented_file d ->
  (Forall (fun m => Forall supported (snd m)) d /\
   exists f, describes d f /\ exists n ts, line_tokens ls = repeat nl n ++ ts /\ says_materials f ts) \/
  (~ Forall (fun m => Forall supported (snd m)) d /\ stops_file (line_tokens ls)).
Proof.
  induction d as [|[name sts] d IH]; intros ls H Hd.
  - left. split; auto. exists []. split; [constructor|].
    exists (length ls), []. split; [|constructor]. rewrite app_nil_r. cbn in H. remember [] as e eqn:E.
    induction H as [|? ls H IH|]; [reflexivity| |discriminate].
    change (line_tokens ([] :: ls)) with (nl :: line_tokens ls). rewrite IH; auto.
  - inversion_clear Hd as [|? ? [Hw Hd1] Hd2]. cbn [fst snd] in *.
    unfold file_lines in H. cbn [flat_map fst snd] in H. fold (file_lines d) in H.
    (* the blank lines in front *)
    assert (K : exists n ls', ls = repeat [] n ++ [lit "newmtl"; name] :: ls' /\
                 with_blanks (map statement_line sts ++ file_lines d) ls').
    { cbn [app] in H. remember ([lit "newmtl"; name] :: map statement_line sts ++ file_lines d) as e eqn:E.
      induction H as [|? ls H IHb|x0 ? ls H _]; [discriminate| |].
      - destruct (IHb E) as (n & ls' & -> & H'). exists (S n), ls'. auto.
      - inversion E; subst. exists 0, ls. auto. }
    destruct K as (n & ls' & -> & H'). apply blanks_app in H' as (l1 & l2 & -> & H1 & H2).
    assert (Et : line_tokens (repeat [] n ++ [lit "newmtl"; name] :: l1 ++ l2) =
                 repeat nl n ++ lit "newmtl" :: name :: (nl :: line_tokens l1) ++ line_tokens l2).
    { rewrite line_tokens_app. f_equal; [clear; induction n; cbn; [auto|f_equal; auto]|].
      change (line_tokens ([lit "newmtl"; name] :: l1 ++ l2)) with (lit "newmtl" :: name :: nl :: line_tokens (l1 ++ l2)).
      rewrite line_tokens_app. reflexivity. }
    rewrite Et. clear Et.
    destruct (settings_lines sts l1 H1 Hd1) as [[Hs (ss & Hss & Hsy)]|[Hs Hr]].
    + destruct (IH l2 H2 Hd2) as [[Hsd (f & Hf & n' & ts & Et & Hm)]|[Hsd (n' & f & tsf & nm & us & Et & Hm & Hst)]].
      * left. split; [constructor; auto|]. exists ((name, ss) :: f). split; [constructor; auto|].
        exists n, (lit "newmtl" :: name :: ((nl :: line_tokens l1) ++ repeat nl n') ++ ts). split.
        { rewrite Et. rewrite <- app_assoc. reflexivity. }
        constructor; auto. apply settings_blanks. now constructor.
      * right. split; [intro C; inversion C; auto|].
        exists n, ((name, ss) :: f), (lit "newmtl" :: name :: ((nl :: line_tokens l1) ++ repeat nl n') ++ tsf), nm, us.
        split; [|split; auto].
        { rewrite Et. cbn [app]. rewrite <- !app_assoc. reflexivity. }
        constructor; auto. apply settings_blanks. now constructor.
    + right. split; [intro C; inversion C; auto|].
      exists n, [], [], name, ((nl :: line_tokens l1) ++ line_tokens l2). split; [reflexivity|]. split; [constructor|].
      apply (stops_blank (line_tokens l1 ++ line_tokens l2)). apply Hr.
Qed.

Lemma stops_err : forall input ts, tokenizes input ts -> stops_file ts -> exists e, parse input = Err e.
Proof.
  intros input ts Ht (n & f & tsf & name & us & -> & Hm & ss & pre & from & c & rest & -> & Hs & Hf).
  rewrite run_input. apply tokenizes_iff in Ht.
  assert (K : fails_file (lex input) c rest).
  { rewrite <- Ht, app_assoc. apply (fails_in f (repeat nl n ++ tsf) name ss pre from c rest); auto. exists n, tsf. auto. }
  destruct (run_fails _ _ _ _ 1 K (lex_fuel input)) as (p & _ & E). unfold fuel_for; rewrite E. eexists. reflexivity.
Qed.

Lemma doc_cases : forall input d, doc_text input d -> documented_file d ->
  (Forall (fun m => Forall supported (snd m)) d /\ exists f, describes d f /\ parse input = Ok (file_means f)) \/
  (~ Forall (fun m => Forall supported (snd m)) d /\ exists e, parse input = Err e).
Proof.
  intros input d (ls & Hl & Ht) Hd. destruct (materials_lines d ls Hl Hd) as [[Hs (f & Hf & n & ts & Et & Hm)]|[Hs Hst]].
  - left. split; auto. exists f. split; auto. apply parse_ok_iff. exists (line_tokens ls), f. repeat split; auto.
    exists n, ts. auto.
  - right. split; auto. eapply stops_err; eauto.
Qed.

Lemma doc_meaning : forall input d set, doc_text input d -> documented_file d -> parse input = Ok set ->
  exists f, describes d f /\ set = file_means f.
Proof.
  intros input d set H Hd P. destruct (doc_cases input d H Hd) as [[_ (f & Hf & E)]|[_ (e & E)]]; rewrite P in E; inversion E.
  eauto.
Qed.

Lemma doc_accepts : forall input d, doc_text input d -> documented_file d ->
  ((exists set, parse input = Ok set) <-> Forall (fun m => Forall supported (snd m)) d).
Proof.
  intros input d H Hd. destruct (doc_cases input d H Hd) as [[Hs (f & Hf & E)]|[Hs (e & E)]]; rewrite E; split; eauto.
  - intros (? & C). discriminate.
  - intro C. now elim Hs.
Qed.
