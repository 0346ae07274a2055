(** Consequences of MtlTop.v. *)
From Verif Require Import MtlModel SourceProofs ConsumeProofs LexerProofs TotalProofs MtlSpec MtlRun MtlTop TextProofs.
Local Open Scope list_scope.

(** * One reading *)

Lemma color_word_inj : forall f f', color_word f = color_word f' -> f = f'.
Proof. intros [] []; cbn; congruence. Qed.

Lemma number_word_inj : forall f f', number_word f = number_word f' -> f = f'.
Proof. intros [] []; cbn; congruence. Qed.

Lemma map_word_inj : forall f f' w, map_word f w -> map_word f' w -> f = f'.
Proof. intros f f' w H H'. destruct H; inversion H'; reflexivity. Qed.

Lemma says_one : forall s line rest s' line' rest', says s line -> says s' line' ->
  line ++ rest = line' ++ rest' -> s = s' /\ line = line' /\ rest = rest'.
Proof.
  intros s line rest s' line' rest' H H' E.
  destruct H as [f r g b x y z Hr Hg Hb|f t x Ht|t n i Ht Hi|f w nm Hw];
  destruct H' as [f' r' g' b' x' y' z' Hr' Hg' Hb'|f' t' x' Ht'|t' n' i' Ht' Hi'|f' w' nm' Hw']; cbn [app] in E;
    try (exfalso; injection E as E _; destruct f; destruct f'; discriminate);
    try (exfalso; injection E as E _; destruct f; discriminate);
    try (exfalso; injection E as E _; destruct f'; discriminate);
    try (exfalso; injection E as E _; destruct f; destruct Hw'; discriminate);
    try (exfalso; injection E as E _; destruct f'; destruct Hw; discriminate);
    try (exfalso; injection E as E _; destruct Hw'; discriminate);
    try (exfalso; injection E as E _; destruct Hw; discriminate).
  - injection E as E1 -> -> -> ->. apply color_word_inj in E1. subst f'. unfold float_token in *.
    repeat split; auto. congruence.
  - injection E as E1 -> ->. apply number_word_inj in E1. subst f'. unfold float_token in *. repeat split; auto. congruence.
  - injection E as -> ->. assert (n = n') by congruence. subst n'. repeat split; auto.
    destruct Hi; inversion Hi'; reflexivity.
  - injection E as -> -> ->. rewrite (map_word_inj _ _ _ Hw Hw'). auto.
Qed.

Lemma says_front : forall s line ts, says s line -> exists w ts', line ++ ts = w :: ts' /\ w <> nl /\ w <> lit "newmtl".
Proof.
  intros s line ts H. destruct H as [f r g b x y z Hr Hg Hb|f t x Ht|t n i Ht Hi|f w nm Hw]; cbn [app];
    eexists _, _; (split; [reflexivity|]); try destruct f; try destruct Hw; split; discriminate.
Qed.

Lemma settings_one : forall ss ts, says_settings ss ts -> forall ss' ts' tail tail', says_settings ss' ts' ->
  at_end tail -> at_end tail' -> ts ++ tail = ts' ++ tail' -> ss = ss' /\ ts = ts' /\ tail = tail'.
Proof.
  intros ss ts H. induction H as [|ss ts H IH|s line ss ts Hs H IH]; intros ss' ts' tail tail' H' Ht Ht' E.
  - destruct H' as [|ss' ts' H'|s' line' ss' ts' Hs' H'].
    + auto.
    + cbn in E. subst tail. exfalso. now apply (at_end_not_nl _ Ht).
    + rewrite <- app_assoc in E. cbn [app] in E. destruct (says_front _ _ (ts' ++ tail') Hs') as (w & r & Ew & _ & Hn).
      rewrite Ew in E. subst tail. destruct Ht as [C|(r' & C)]; congruence.
  - destruct H' as [|ss' ts' H'|s' line' ss' ts' Hs' H'].
    + cbn in E. subst tail'. exfalso. now apply (at_end_not_nl _ Ht').
    + cbn [app] in E. injection E as E. destruct (IH ss' ts' tail tail' H' Ht Ht' E) as (-> & -> & ->). auto.
    + rewrite <- app_assoc in E. cbn [app] in E. destruct (says_front _ _ (ts' ++ tail') Hs') as (w & r & Ew & Hn & _).
      rewrite Ew in E. congruence.
  - rewrite <- app_assoc in E. destruct H' as [|ss' ts' H'|s' line' ss' ts' Hs' H'].
    + cbn [app] in E. destruct (says_front _ _ (ts ++ tail) Hs) as (w & r & Ew & _ & Hn).
      rewrite Ew in E. subst tail'. destruct Ht' as [C|(r' & C)]; congruence.
    + cbn [app] in E. destruct (says_front _ _ (ts ++ tail) Hs) as (w & r & Ew & Hn & _). rewrite Ew in E. congruence.
    + rewrite <- app_assoc in E. destruct (says_one _ _ _ _ _ _ Hs Hs' E) as (-> & -> & E').
      destruct (IH ss' ts' tail tail' H' Ht Ht' E') as (-> & -> & ->). auto.
Qed.

Lemma materials_at_end : forall f ts, says_materials f ts -> at_end ts.
Proof. intros f ts H. destruct H; [now left|right; eauto]. Qed.

Lemma materials_one : forall f ts, says_materials f ts -> forall f', says_materials f' ts -> f = f'.
Proof.
  intros f ts H. induction H as [|name ss ts f ts' Hs H IH]; intros f' H'; inversion H'; subst; auto.
  match goal with K : says_settings ?s ?t, E : ?t ++ ?u = ts ++ ts', L : says_materials _ ?u |- _ =>
    destruct (settings_one _ _ K _ _ _ _ Hs (materials_at_end _ _ L) (materials_at_end _ _ H) E) as (-> & -> & ->);
    now rewrite (IH _ L) end.
Qed.

Lemma newlines_one : forall n n' ts ts', hd_error ts <> Some nl -> hd_error ts' <> Some nl ->
  repeat nl n ++ ts = repeat nl n' ++ ts' -> n = n' /\ ts = ts'.
Proof.
  induction n as [|n IH]; intros [|n'] ts ts' H H' E; cbn in E; auto.
  - subst ts. now destruct H.
  - subst ts'. now destruct H'.
  - injection E as E. destruct (IH n' ts ts' H H' E) as (-> & ->). auto.
Qed.

Lemma file_one : forall f f' ts, says_file f ts -> says_file f' ts -> f = f'.
Proof.
  intros f f' ts (n & ts1 & -> & H) (n' & ts2 & E & H').
  apply newlines_one in E; [|apply at_end_not_nl; eapply materials_at_end; eauto..].
  destruct E as [_ ->]. eapply materials_one; eauto.
Qed.

Lemma text_one : forall input f f', text_says input f -> text_says input f' -> f = f'.
Proof.
  intros input f f' (ts & Ht & H) (ts' & Ht' & H'). apply tokenizes_iff in Ht, Ht'. subst. eapply file_one; eauto.
Qed.

Lemma parsed_means : forall input set f, parse input = Ok set -> text_says input f -> set = file_means f.
Proof.
  intros input set f E Hf. apply parse_ok_iff in E. destruct E as (ts & f' & Ht & Hs & ->).
  now rewrite (text_one input f f' Hf (ex_intro _ ts (conj Ht Hs))).
Qed.

Lemma parsed_says : forall input set, parse input = Ok set -> exists f, text_says input f /\ set = file_means f.
Proof. intros input set E. apply parse_ok_iff in E. destruct E as (ts & f & Ht & Hs & ->). exists f. split; auto. exists ts. auto. Qed.

Lemma parse_says : forall input f, text_says input f -> parse input = Ok (file_means f).
Proof. intros input f (ts & Ht & Hs). apply parse_ok_iff. eauto. Qed.

(** * Fields *)

Lemma last_of_none : forall A (g : setting -> option A) ss, (forall s, In s ss -> g s = None) -> last_of g ss = None.
Proof.
  intros A g ss H. induction ss as [|s ss IH]; auto. cbn. rewrite IH by (intros; apply H; now right). apply H. now left.
Qed.

Lemma last_of_app : forall A (g : setting -> option A) a b,
  last_of g (a ++ b) = match last_of g b with Some x => Some x | None => last_of g a end.
Proof.
  intros A g a b. induction a as [|s a IH]; cbn; [now destruct (last_of g b)|]. rewrite IH. now destruct (last_of g b).
Qed.

Lemma last_of_last : forall A (g : setting -> option A) a s b x, g s = Some x -> (forall s', In s' b -> g s' = None) ->
  last_of g (a ++ s :: b) = Some x.
Proof. intros A g a s b x Hs Hb. rewrite last_of_app. cbn. now rewrite (last_of_none _ _ _ Hb), Hs. Qed.

(** * Blank lines *)

Lemma says_nl : forall s a b, says s (a ++ nl :: b) -> b = [].
Proof.
  intros s a b H. inversion H as [f r g b' x y z Hr Hg Hb E1 E|f t x Ht E1 E|t n i Ht Hi E1 E|f w nm Hw E1 E].
  - destruct a as [|t1 [|t2 [|t3 [|t4 a]]]]; cbn in E; try (injection E as C; destruct f; discriminate).
    + injection E; intros; subst. discriminate Hr.
    + injection E; intros; subst. discriminate Hg.
    + injection E; intros; subst. auto.
    + injection E; intros C _ _ _ _. destruct a; discriminate.
  - destruct a as [|t1 [|t2 a]]; cbn in E; try (injection E as C; destruct f; discriminate).
    + injection E; intros; subst. auto.
    + injection E; intros C _ _. destruct a; discriminate.
  - destruct a as [|t1 [|t2 a]]; cbn in E; try discriminate.
    + injection E; intros; subst. auto.
    + injection E; intros C _ _. destruct a; discriminate.
  - destruct a as [|t1 [|t2 a]]; cbn in E.
    + injection E; intros; subst. inversion Hw.
    + injection E; intros; subst. auto.
    + injection E; intros C _ _. destruct a; discriminate.
Qed.

Lemma app_split : forall A (a b c d : list A), a ++ b = c ++ d ->
  (exists e, c = a ++ e /\ b = e ++ d) \/ (exists e, a = c ++ e /\ d = e ++ b).
Proof.
  intros A a. induction a as [|x a IH]; intros b c d E; cbn in E.
  - left. exists c. auto.
  - destruct c as [|y c]; cbn in E.
    + right. exists (x :: a). auto.
    + injection E as -> E. destruct (IH _ _ _ E) as [(e & -> & ->)|(e & -> & ->)]; [left|right]; exists e; auto.
Qed.

Lemma split_at_nl : forall (x y a b : list bytes), x ++ y = a ++ nl :: b ->
  (exists e, x = a ++ nl :: e /\ b = e ++ y) \/ (exists e, a = x ++ e /\ y = e ++ nl :: b).
Proof.
  intros x y a b E. destruct (app_split _ _ _ _ _ E) as [(e & -> & ->)|(e & -> & E')].
  - right. exists e. auto.
  - destruct e as [|z e]; cbn in E'.
    + right. exists []. split; [now rewrite !app_nil_r|now symmetry].
    + injection E' as <- ->. left. exists e. auto.
Qed.

Lemma settings_double : forall ss ts, says_settings ss ts -> forall a b, ts = a ++ nl :: b ->
  says_settings ss (a ++ nl :: nl :: b).
Proof.
  intros ss ts H. induction H as [|ss ts H IH|s line ss ts Hs H IH]; intros a b E.
  - destruct a; discriminate.
  - destruct a as [|t a]; cbn in E; injection E; intros; subst.
    + cbn. now do 2 constructor.
    + cbn. constructor. now apply IH.
  - apply split_at_nl in E. destruct E as [(e & -> & ->)|(e & -> & ->)].
    + pose proof (says_nl _ _ _ Hs) as ->. cbn [app].
      replace (a ++ nl :: nl :: ts) with ((a ++ [nl]) ++ nl :: ts) by (now rewrite <- app_assoc). constructor; auto. now constructor.
    + rewrite <- app_assoc. constructor; auto.
Qed.

Lemma materials_double : forall f ts, says_materials f ts -> forall a b, ts = a ++ nl :: b ->
  says_materials f (a ++ nl :: nl :: b).
Proof.
  intros f ts H. induction H as [|name ss ts f ts' Hs H IH]; intros a b E.
  - destruct a; discriminate.
  - destruct a as [|t [|t1 a]]; cbn in E; try discriminate.
    + injection E as <- -> <-. cbn. change (nl :: ts ++ ts') with ((nl :: ts) ++ ts'). constructor; auto. now constructor.
    + injection E as <- <- E. cbn. apply split_at_nl in E. destruct E as [(e & -> & ->)|(e & -> & ->)].
      * replace (a ++ nl :: nl :: e ++ ts') with ((a ++ nl :: nl :: e) ++ ts') by (rewrite <- app_assoc; reflexivity).
        constructor; auto. eapply settings_double; eauto.
      * rewrite <- app_assoc. constructor; auto.
Qed.

Lemma file_double : forall f a b, says_file f (a ++ nl :: b) -> says_file f (a ++ nl :: nl :: b).
Proof.
  intros f a b (n & ts & E & H). symmetry in E. apply split_at_nl in E. destruct E as [(e & E & ->)|(e & -> & ->)].
  - exists (S n), ts. split; auto.
    assert (Ha : a = repeat nl (length a) /\ e = repeat nl (length e) /\ n = length a + S (length e)).
    { clear H. revert n E. induction a as [|x a IH]; intros [|n] E; cbn in E; try discriminate.
      - injection E as E. subst e. rewrite repeat_length. auto.
      - injection E as <- E. destruct (IH _ E) as (E1 & E2 & ->). cbn. repeat split; auto. now f_equal. }
    destruct Ha as (Ha & He & ->). rewrite Ha, He, !repeat_length.
    replace (S (length a + S (length e))) with (length a + S (S (length e))) by lia.
    rewrite repeat_app, <- app_assoc. reflexivity.
  - exists n, (e ++ nl :: nl :: b). rewrite <- app_assoc. split; auto. eapply materials_double; eauto.
Qed.

Lemma blank_line : forall x y set, parse (x ++ LF :: y) = Ok set -> parse (x ++ LF :: LF :: y) = Ok set.
Proof.
  intros x y set E. apply parsed_says in E. destruct E as (f & (ts & Ht & H) & ->). apply parse_says.
  assert (Ht1 : tokenizes (x ++ LF :: y) (lex x ++ nl :: lex y)) by (apply tokenizes_newline; now apply tokenizes_iff).
  exists (lex x ++ nl :: nl :: lex y). split.
  - apply tokenizes_newline; [now apply tokenizes_iff|]. apply (tokenizes_newline [] []); [constructor|now apply tokenizes_iff].
  - apply file_double. apply tokenizes_iff in Ht, Ht1. congruence.
Qed.

(** * A second call *)

Lemma second_call : forall input set p,
  parse_mtlset (fuel_for input) (parser_new input) = (Ok set, p) ->
  fst (parse_mtlset (fuel_for input) p) = Ok (mkMaterialSet []).
Proof.
  intros input set p H.
  destruct (parse_mtlset_lex (fuel_for input) _ _ (related_new input)) as [E Hrel].
  rewrite H in E, Hrel. cbn [fst snd] in E, Hrel.
  pose proof (lex_fuel input) as Hl. fold (fuel_for input) in Hl.
  destruct (file_cases (lex input)) as [(f & Hf)|(c & rest & Hf)].
  - rewrite (run_file _ f _ _ Hf Hl) in Hrel. cbn [snd] in Hrel.
    destruct (parse_mtlset_lex (fuel_for input) _ _ Hrel) as [E2 _]. rewrite E2. reflexivity.
  - destruct (run_fails _ _ _ _ 1 Hf Hl) as (pre & _ & Er). rewrite Er in E. discriminate.
Qed.

(** * Names and sizes *)

(** The names a material mentions. *)
Lemma settings_names : forall ss ts, says_settings ss ts -> forall f nm, In (SetMap f nm) ss -> In nm ts.
Proof.
  intros ss ts H. induction H as [|ss ts H IH|s line ss ts Hs H IH]; intros f nm Hin.
  - destruct Hin.
  - right. eauto.
  - apply in_or_app. destruct Hin as [->|Hin]; eauto. left. inversion Hs; subst. cbn. auto.
Qed.

Lemma materials_names : forall f ts, says_materials f ts -> forall n ss, In (n, ss) f ->
  In n ts /\ forall k nm, In (SetMap k nm) ss -> In nm ts.
Proof.
  intros f ts H. induction H as [|name ss ts f ts' Hs H IH]; intros n ss' Hin; [destruct Hin|].
  destruct Hin as [E|Hin].
  - injection E as -> ->. split; [right; now left|]. intros k nm Hk. right. right. apply in_or_app. left. eapply settings_names; eauto.
  - destruct (IH _ _ Hin) as [H1 H2]. split; [|intros k nm Hk; specialize (H2 k nm Hk)]; right; right; apply in_or_app; auto.
Qed.

Lemma last_of_in : forall A (g : setting -> option A) ss x, last_of g ss = Some x -> exists s, In s ss /\ g s = Some x.
Proof.
  intros A g ss x. induction ss as [|s ss IH]; cbn; [discriminate|]. destruct (last_of g ss) as [y|]; intros E.
  - destruct IH as (s' & Hs & Hg); auto. exists s'. auto.
  - exists s. auto.
Qed.

Lemma given_map_in : forall f s nm, given_map f s = Some nm -> s = SetMap f nm.
Proof. intros f s nm H. destruct s as [| | |k nm']; try discriminate; destruct k; destruct f; cbn in H; congruence. Qed.

Lemma names : forall input set, parse input = Ok set -> forall m, In m (materials set) ->
  proper_name input (name m) /\ forall nm, In (Some nm) (map_names m) -> proper_name input nm.
Proof.
  intros input set E m Hm. apply parsed_says in E. destruct E as (f & (ts & Ht & (n & ts' & -> & H)) & ->).
  cbn in Hm. apply in_map_iff in Hm. destruct Hm as ([nm ss] & <- & Hin).
  destruct (materials_names _ _ H _ _ Hin) as [H1 H2].
  assert (Hp : forall t, In t ts' -> proper_name input t).
  { intros t Hi. eapply token_name; eauto. apply in_or_app. auto. }
  split; [apply Hp; exact H1|]. intros nm' Hi. apply Hp.
  assert (Hx : exists k, last_of (given_map k) ss = Some nm').
  { cbn in Hi. repeat destruct Hi as [Hi|Hi]; try (eexists; exact Hi). destruct Hi. }
  destruct Hx as (k & Hk). apply last_of_in in Hk. destruct Hk as (s & Hs & Hg). apply given_map_in in Hg. subst s. eauto.
Qed.

Lemma materials_length : forall f ts, says_materials f ts -> 2 * length f <= length ts.
Proof. intros f ts H. induction H; cbn; [lia|]. rewrite app_length. lia. Qed.

Lemma size : forall input set, parse input = Ok set -> 2 * length (materials set) <= length input.
Proof.
  intros input set E. apply parsed_says in E. destruct E as (f & (ts & Ht & (n & ts' & -> & H)) & ->).
  cbn. rewrite map_length. apply materials_length in H. apply tokenizes_iff in Ht. pose proof (lex_length input).
  rewrite <- Ht, app_length in H0. lia.
Qed.

(** * Error lines *)

Lemma fails_file_at : forall ts c rest, fails_file ts c rest <->
  exists before from, ts = before ++ from /\ fails_at before from c rest.
Proof.
  intros ts c rest. split.
  - intros H. destruct H as [n t rest Hn Hm|f ts Hf|f ts nm ss ts' ts'' c rest Hf Hs Hb].
    + exists (repeat nl n), (t :: rest). split; auto. now constructor.
    + exists ts, [lit "newmtl"]. split; auto. econstructor; eauto.
    + exists (ts ++ lit "newmtl" :: nm :: ts'), ts''. split; [now rewrite <- app_assoc|]. econstructor; eauto.
  - intros (before & from & -> & H). destruct H as [n t rest Hn Hm|f before Hf|f ts nm ss ts' from c rest Hf Hs Hb].
    + now constructor.
    + econstructor; eauto.
    + rewrite <- app_assoc. econstructor; eauto.
Qed.

Lemma not_float_consumes : forall ts c rest, not_float ts c rest -> exists y, ts = y ++ rest /\ count_nl y <= 1.
Proof.
  intros ts c rest H. destruct H as [|t rest H]; [exists []|exists [t]]; split; auto.
  rewrite count_nl_cons. change (count_nl []) with 0. destruct (bytes_eqb t nl); lia.
Qed.

Lemma setting_consumes : forall ts c rest, fails_setting ts c rest -> exists y, ts = y ++ rest /\ count_nl y <= 1.
Proof.
  assert (Hc : forall f, bytes_eqb (color_word f) nl = false) by (intros []; reflexivity).
  assert (Hd : forall f, bytes_eqb (number_word f) nl = false) by (intros []; reflexivity).
  assert (H1 : forall w t, bytes_eqb w nl = false -> count_nl [w; t] <= 1).
  { intros w t E. rewrite !count_nl_cons, E. change (count_nl []) with 0. destruct (bytes_eqb t nl); lia. }
  intros ts c rest H.
  destruct H as [f ts c rest H|f r x ts c rest Hr H|f r x g y ts c rest Hr Hg H|f ts c rest H| |t rest H|t n rest Ht H|f w H|t ts Hk Hn Hm].
  - destruct (not_float_consumes _ _ _ H) as (z & -> & Hz). exists (color_word f :: z). split; auto. rewrite count_nl_cons, Hc. lia.
  - destruct (not_float_consumes _ _ _ H) as (z & -> & Hz). exists (color_word f :: r :: z). split; auto.
    rewrite !count_nl_cons, Hc, (float_not_nl _ _ Hr). lia.
  - destruct (not_float_consumes _ _ _ H) as (z & -> & Hz). exists (color_word f :: r :: g :: z). split; auto.
    rewrite !count_nl_cons, Hc, (float_not_nl _ _ Hr), (float_not_nl _ _ Hg). lia.
  - destruct (not_float_consumes _ _ _ H) as (z & -> & Hz). exists (number_word f :: z). split; auto. rewrite count_nl_cons, Hd. lia.
  - exists [lit "illum"]. split; auto.
  - exists [lit "illum"; t]. split; auto.
  - exists [lit "illum"; t]. split; auto.
  - exists [w]. split; auto. rewrite count_nl_cons. change (count_nl []) with 0. destruct (bytes_eqb w nl); lia.
  - exists []. split; auto.
Qed.

Lemma at_consumes : forall before from c rest, fails_at before from c rest -> exists y, from = y ++ rest /\ count_nl y <= 1.
Proof.
  intros before from c rest H. destruct H as [n t rest Hn Hm|f before Hf|f ts nm ss ts' from c rest Hf Hs Hb].
  - exists []. split; auto.
  - exists [lit "newmtl"]. split; auto.
  - eapply setting_consumes; eauto.
Qed.

Lemma error_iff : forall input e, parse input = Err e <->
  exists x y z tx ty tz, input = x ++ y ++ z /\
    tokenizes x tx /\ tokenizes y ty /\ tokenizes z tz /\ tokenizes input (tx ++ ty ++ tz) /\
    fails_at tx (ty ++ tz) (err_kind e, err_message e) tz /\
    err_line_number e = line_after (x ++ y).
Proof.
  intros input e. rewrite parse_err_iff. split.
  - intros (before & after & ts & rest & c & -> & H1 & H2 & H3 & H & ->).
    apply fails_file_at in H. destruct H as (tx & from & E & H). destruct (at_consumes _ _ _ _ H) as (ty & -> & _).
    rewrite app_assoc in E. apply app_inv_tail in E. subst ts.
    destruct (tokenizes_split _ _ H1 _ _ eq_refl) as (x & y & -> & Hx & Hy).
    exists x, y, after, tx, ty, rest. rewrite app_assoc. repeat split; auto.
    + rewrite app_assoc. auto.
    + destruct c. exact H.
  - intros (x & y & z & tx & ty & tz & -> & Hx & Hy & Hz & Ht & H & Hl).
    rewrite (app_assoc tx ty tz) in Ht.
    destruct (tokenizes_split _ _ Ht _ _ eq_refl) as (b & a & E' & Hb & Ha).
    exists b, a, (tx ++ ty), tz, (err_kind e, err_message e). repeat split; auto.
    + apply fails_file_at. exists tx, (ty ++ tz). now rewrite <- app_assoc.
    + destruct e as [l k m]. cbn in *. subst l. f_equal. unfold line_after. f_equal.
      rewrite count_occ_app, <- (count_nl_line _ _ Hx), <- (count_nl_line _ _ Hy), <- count_nl_app.
      apply count_nl_line. exact Hb.
Qed.

Lemma error_place : forall input e, parse input = Err e ->
  exists x y z tx ty tz, input = x ++ y ++ z /\
    tokenizes x tx /\ tokenizes y ty /\ tokenizes z tz /\ tokenizes input (tx ++ ty ++ tz) /\
    fails_at tx (ty ++ tz) (err_kind e, err_message e) tz /\
    err_line_number e = line_after (x ++ y) /\ line_after x <= err_line_number e <= line_after x + 1.
Proof.
  intros input e H. apply error_iff in H. destruct H as (x & y & z & tx & ty & tz & H1 & H2 & H3 & H4 & H5 & H6 & H7).
  exists x, y, z, tx, ty, tz. do 7 (split; [assumption|]).
  destruct (at_consumes _ _ _ _ H6) as (y' & E & Hy). apply app_inv_tail in E. subst y'.
  rewrite H7. unfold line_after. rewrite (count_occ_app ascii_dec x y LF). rewrite <- (count_nl_line _ _ H3). lia.
Qed.

Lemma error_bounds : forall input e, parse input = Err e ->
  1 <= err_line_number e <= 1 + count_occ ascii_dec input LF.
Proof.
  intros input e H. apply error_place in H. destruct H as (x & y & z & _ & _ & _ & -> & _ & _ & _ & _ & _ & -> & _).
  unfold line_after. rewrite app_assoc, (count_occ_app ascii_dec (x ++ y) z LF). lia.
Qed.

(** * Statements for a field *)

Section Fields.
Context (input : bytes) (set : material_set) (f : mtl_file) (i : nat) (n : bytes) (ss : list setting) (m : material).
Context (Hok : parse input = Ok set) (Hsays : text_says input f).
Context (Hm : nth_error (materials set) i = Some m) (Hi : nth_error f i = Some (n, ss)).

Lemma field_material : m = material_of (n, ss).
Proof.
  pose proof (parsed_means _ _ _ Hok Hsays) as E. clear Hok. subst set. cbn in Hm. rewrite nth_error_map, Hi in Hm. cbn in Hm. congruence.
Qed.

Lemma color_last : forall k a c b, ss = a ++ SetColor k c :: b -> (forall c', ~ In (SetColor k c') b) -> color_of k m = c.
Proof.
  intros k a c b E Hb. rewrite field_material, E. destruct k; cbn; unfold or_else; (erewrite last_of_last; [reflexivity|reflexivity|]);
    (intros s Hs; destruct s as [[]| | |]; try reflexivity; exfalso; eapply Hb; eauto).
Qed.

Lemma color_default : forall k, (forall c, ~ In (SetColor k c) ss) -> color_of k m = black.
Proof.
  intros k Hb. rewrite field_material. destruct k; cbn; unfold or_else; (rewrite last_of_none; [reflexivity|]);
    (intros s Hs; destruct s as [[]| | |]; try reflexivity; exfalso; eapply Hb; eauto).
Qed.

Lemma map_last : forall k a nm b, ss = a ++ SetMap k nm :: b -> (forall c', ~ In (SetMap k c') b) -> map_of k m = Some nm.
Proof.
  intros k a c b E Hb. rewrite field_material, E. destruct k; cbn; (erewrite last_of_last; [reflexivity|reflexivity|]);
    (intros s Hs; destruct s as [| | |[]]; try reflexivity; exfalso; eapply Hb; eauto).
Qed.

Lemma map_default : forall k, (forall nm, ~ In (SetMap k nm) ss) -> map_of k m = None.
Proof.
  intros k Hb. rewrite field_material. destruct k; cbn; (rewrite last_of_none; [reflexivity|]);
    (intros s Hs; destruct s as [| | |[]]; try reflexivity; exfalso; eapply Hb; eauto).
Qed.

Lemma number_last : forall k a x b, ss = a ++ SetNumber k x :: b -> (forall x', ~ In (SetNumber k x') b) ->
  match k with Ns => specular_exponent m = x | D => dissolve m = x | Ni => optical_density m = Some x end.
Proof.
  intros k a c b E Hb. rewrite field_material, E. destruct k; cbn; unfold or_else; (erewrite last_of_last; [reflexivity|reflexivity|]);
    (intros s Hs; destruct s as [|[]| |]; try reflexivity; exfalso; eapply Hb; eauto).
Qed.

Lemma number_default : forall k, (forall x, ~ In (SetNumber k x) ss) ->
  match k with Ns => specular_exponent m = f64_zero | D => dissolve m = f64_one | Ni => optical_density m = None end.
Proof.
  intros k Hb. rewrite field_material. destruct k; cbn; unfold or_else; (rewrite last_of_none; [reflexivity|]);
    (intros s Hs; destruct s as [|[]| |]; try reflexivity; exfalso; eapply Hb; eauto).
Qed.

Lemma illum_last : forall a x b, ss = a ++ SetIllum x :: b -> (forall x', ~ In (SetIllum x') b) -> illumination_model m = x.
Proof.
  intros a c b E Hb. rewrite field_material, E. cbn; unfold or_else; (erewrite last_of_last; [reflexivity|reflexivity|]);
    (intros s Hs; destruct s; try reflexivity; exfalso; eapply Hb; eauto).
Qed.

Lemma illum_default : (forall x, ~ In (SetIllum x) ss) -> illumination_model m = AmbientDiffuseSpecular.
Proof.
  intros Hb. rewrite field_material. cbn; unfold or_else; (rewrite last_of_none; [reflexivity|]);
    (intros s Hs; destruct s; try reflexivity; exfalso; eapply Hb; eauto).
Qed.

Lemma field_name : name m = n.
Proof. now rewrite field_material. Qed.

End Fields.

Lemma swap_settings : forall n a s s' b, ~ same_field s s' ->
  material_of (n, a ++ s :: s' :: b) = material_of (n, a ++ s' :: s :: b).
Proof.
  intros n a s s' b H.
  assert (K : forall A (g : setting -> option A), g s = None \/ g s' = None ->
            last_of g (a ++ s :: s' :: b) = last_of g (a ++ s' :: s :: b)).
  { intros A g Hg. rewrite !last_of_app. cbn. destruct (last_of g b); auto. destruct Hg as [-> | ->]; destruct (g _); reflexivity. }
  unfold material_of. cbn [fst snd]. 
  rewrite !(K _ (given_color _)), !(K _ (given_number _)), (K _ given_illum), !(K _ (given_map _)); [reflexivity|..];
    destruct s as [[]|[]| |[]]; destruct s' as [[]|[]| |[]]; cbn in *; tauto.
Qed.

Lemma swapped : forall input input' f before after n a s s' b,
  f = before ++ (n, a ++ s :: s' :: b) :: after -> ~ same_field s s' ->
  text_says input f -> text_says input' (before ++ (n, a ++ s' :: s :: b) :: after) ->
  exists set, parse input = Ok set /\ parse input' = Ok set.
Proof.
  intros input input' f before after n a s s' b -> Hd H H'. eexists. split; [apply parse_says; exact H|].
  rewrite (parse_says _ _ H'). unfold file_means. rewrite !map_app. cbn [map]. now rewrite (swap_settings _ _ _ _ _ Hd).
Qed.

Lemma alone : forall input input' set set' f f' i j, parse input = Ok set -> parse input' = Ok set' ->
  text_says input f -> text_says input' f' -> nth_error f i = nth_error f' j ->
  nth_error (materials set) i = nth_error (materials set') j.
Proof.
  intros input input' set set' f f' i j H H' Hs Hs' E.
  rewrite (parsed_means _ _ _ H Hs), (parsed_means _ _ _ H' Hs'). cbn. now rewrite !nth_error_map, E.
Qed.

(** * Illumination models *)

Lemma illum_fails : forall input f ts n ss ts' t rest c,
  says_file f ts -> says_settings ss ts' ->
  tokenizes input (ts ++ lit "newmtl" :: n :: ts' ++ lit "illum" :: t :: rest) ->
  fails_setting (lit "illum" :: t :: rest) c rest ->
  exists e, parse input = Err e /\ err_kind e = fst c /\ err_message e = snd c.
Proof.
  intros input f ts n ss ts' t rest c Hf Hs Ht Hfail.
  pose proof (fails_in f ts n ss ts' _ c rest Hf Hs Hfail) as H.
  replace (ts ++ lit "newmtl" :: n :: ts' ++ lit "illum" :: t :: rest) with
    ((ts ++ lit "newmtl" :: n :: ts' ++ [lit "illum"; t]) ++ rest) in *.
  2:{ rewrite <- app_assoc. cbn [app]. now rewrite <- app_assoc. }
  destruct (tokenizes_split _ _ Ht _ _ eq_refl) as (s1 & s2 & E & H1 & H2).
  exists (mkParseError (line_after s1) (fst c) (snd c)). split; auto. apply parse_err_iff.
  exists s1, s2, (ts ++ lit "newmtl" :: n :: ts' ++ [lit "illum"; t]), rest, c. auto 10.
Qed.

Lemma settings_app : forall ss ts ss' ts', says_settings ss ts -> says_settings ss' ts' -> says_settings (ss ++ ss') (ts ++ ts').
Proof.
  intros ss ts ss' ts' H H'. induction H; cbn [app]; auto.
  - now constructor.
  - rewrite <- app_assoc. now constructor.
Qed.

Lemma illum_unknown : forall input f ts n ss ts' t k rest,
  says_file f ts -> says_settings ss ts' ->
  tokenizes input (ts ++ lit "newmtl" :: n :: ts' ++ lit "illum" :: t :: rest) ->
  RustStd.parse_usize t = Some k -> (2 < k)%N ->
  exists e, parse input = Err e /\ err_kind e = UnknownIlluminationModel.
Proof.
  intros input f ts n ss ts' t k rest Hf Hs Ht Hk Hlt.
  destruct (illum_fails input f ts n ss ts' t rest (UnknownIlluminationModel, msg_illum k)) as (e & H & H1 & _); eauto.
  eapply fails_illum; eauto. intros i Hi. inversion Hi; subst; lia.
Qed.

Lemma illum_not_integer : forall input f ts n ss ts' t rest,
  says_file f ts -> says_settings ss ts' ->
  tokenizes input (ts ++ lit "newmtl" :: n :: ts' ++ lit "illum" :: t :: rest) ->
  RustStd.parse_usize t = None ->
  exists e, parse input = Err e /\ err_kind e = ExpectedInteger.
Proof.
  intros input f ts n ss ts' t rest Hf Hs Ht Hk.
  destruct (illum_fails input f ts n ss ts' t rest (ExpectedInteger, msg_integer t)) as (e & H & H1 & _); eauto.
  now apply fails_illum_integer.
Qed.

Lemma illum_ends : forall input f ts n ss ts',
  says_file f ts -> says_settings ss ts' ->
  tokenizes input (ts ++ lit "newmtl" :: n :: ts' ++ [lit "illum"]) ->
  exists e, parse input = Err e /\ err_kind e = EndOfFile.
Proof.
  intros input f ts n ss ts' Hf Hs Ht.
  pose proof (fails_in f ts n ss ts' _ _ _ Hf Hs fails_illum_end) as H.
  exists (mkParseError (line_after input) EndOfFile msg_end). split; auto. apply parse_err_iff.
  exists input, [], (ts ++ lit "newmtl" :: n :: ts' ++ [lit "illum"]), [], (EndOfFile, msg_end).
  rewrite !app_nil_r. repeat split; auto. constructor.
Qed.

Lemma illum_known : forall input set f ts n ss ts' t rest,
  says_file f ts -> says_settings ss ts' ->
  tokenizes input (ts ++ lit "newmtl" :: n :: ts' ++ lit "illum" :: t :: rest) ->
  parse input = Ok set ->
  exists k i ss', RustStd.parse_usize t = Some k /\ illum_number k i /\
    exists m, nth_error (materials set) (length f) = Some m /\ m = material_of (n, ss ++ SetIllum i :: ss').
Proof.
  intros input set f ts n ss ts' t rest Hf Hs Ht Hok.
  destruct (RustStd.parse_usize t) as [k|] eqn:Ek.
  2:{ destruct (illum_not_integer _ _ _ _ _ _ _ _ Hf Hs Ht Ek) as (e & C & _). congruence. }
  destruct (N.lt_ge_cases 2 k) as [Hlt|Hge].
  { destruct (illum_unknown _ _ _ _ _ _ _ _ _ Hf Hs Ht Ek Hlt) as (e & C & _). congruence. }
  assert (Hi : exists i, illum_number k i).
  { assert (k = 0 \/ k = 1 \/ k = 2)%N as [->|[->| ->]] by lia; eexists; constructor. }
  destruct Hi as (i & Hi). exists k, i.
  destruct (settings_cases (length rest) rest) as (ss' & pre & rest' & -> & Hs' & [He|(c & r & Hbad)]); auto.
  - assert (Hall : says_settings (ss ++ SetIllum i :: ss') (ts' ++ lit "illum" :: t :: pre)).
    { apply settings_app; auto. change (lit "illum" :: t :: pre) with ([lit "illum"; t] ++ pre). constructor; auto. econstructor; eauto. }
    destruct (materials_cases (length rest') rest') as [(f' & H)|(f' & pre' & H & Hx)]; auto.
    + exists ss'. split; auto. split; auto. eexists. split; [|reflexivity].
      destruct Hf as (b & ts1 & -> & Hm).
      assert (Hsays : text_says input (f ++ (n, ss ++ SetIllum i :: ss') :: f')).
      { eexists. split; [exact Ht|]. exists b. eexists. split; [now rewrite <- app_assoc|].
        clear - Hm Hall H. induction Hm as [|nm s0 t0 f0 t1 Hs0 Hm IH]; cbn [app].
        - replace (ts' ++ lit "illum" :: t :: pre ++ rest') with ((ts' ++ lit "illum" :: t :: pre) ++ rest') by (now rewrite <- app_assoc).
          now constructor.
        - rewrite <- app_assoc. constructor; auto. }
      rewrite (parsed_means _ _ _ Hok Hsays). cbn. rewrite nth_error_map, nth_error_app2 by lia. now rewrite Nat.sub_diag.
    + exfalso.
      assert (Hbad : exists c r, fails_file (ts ++ lit "newmtl" :: n :: ts' ++ lit "illum" :: t :: pre ++ rest') c r).
      { assert (Hfile : says_file (f ++ (n, ss ++ SetIllum i :: ss') :: f') (ts ++ lit "newmtl" :: n :: (ts' ++ lit "illum" :: t :: pre) ++ pre')).
        { destruct Hf as (b & ts1 & -> & Hm). exists b. eexists. split; [now rewrite <- app_assoc|].
          clear - Hm Hall H. induction Hm as [|nm s0 t0 f0 t1 Hs0 Hm IH]; cbn [app]; [now constructor|].
          rewrite <- app_assoc. constructor; auto. }
        destruct Hx as [->|(nm' & s1 & t1 & t2 & c & r & -> & H1 & H2)].
        - pose proof (fails_name _ _ Hfile) as Hb. eexists _, _.
          match type of Hb with fails_file ?x _ _ => match goal with |- fails_file ?y _ _ => replace y with x; [exact Hb|] end end.
          rewrite <- app_assoc. cbn [app]. rewrite <- !app_assoc. cbn [app]. reflexivity.
        - pose proof (fails_in _ _ nm' _ _ _ _ _ Hfile H1 H2) as Hb. eexists _, _.
          match type of Hb with fails_file ?x _ _ => match goal with |- fails_file ?y _ _ => replace y with x; [exact Hb|] end end.
          rewrite <- app_assoc. cbn [app]. rewrite <- !app_assoc. cbn [app]. reflexivity. }
      destruct Hbad as (c & r & Hbad). apply parsed_says in Hok. destruct Hok as (g & (ts0 & Ht0 & Hg) & _).
      apply tokenizes_iff in Ht, Ht0. subst ts0. rewrite Ht in *.
      pose proof (lex_fuel input) as Hl. destruct (run_fails _ _ _ _ 1 Hbad Hl) as (p0 & _ & Er).
      rewrite (run_file _ _ _ 1 Hg Hl) in Er. discriminate.
  - exfalso.
    assert (Hall : says_settings (ss ++ SetIllum i :: ss') (ts' ++ lit "illum" :: t :: pre)).
    { apply settings_app; auto. change (lit "illum" :: t :: pre) with ([lit "illum"; t] ++ pre). constructor; auto. econstructor; eauto. }
    pose proof (fails_in _ _ n _ _ _ _ _ Hf Hall Hbad) as Hb.
    replace ((ts' ++ lit "illum" :: t :: pre) ++ rest') with (ts' ++ lit "illum" :: t :: pre ++ rest') in Hb by (now rewrite <- app_assoc).
    apply parsed_says in Hok. destruct Hok as (g & (ts0 & Ht0 & Hg) & _).
    apply tokenizes_iff in Ht, Ht0. subst ts0. rewrite Ht in *.
    pose proof (lex_fuel input) as Hl. destruct (run_fails _ _ _ _ 1 Hb Hl) as (p0 & _ & Er).
    rewrite (run_file _ _ _ 1 Hg Hl) in Er. discriminate.
Qed.

Lemma illum_value : forall input set f ts n ss ts' t k i rest m,
  says_file f ts -> says_settings ss ts' ->
  tokenizes input (ts ++ lit "newmtl" :: n :: ts' ++ lit "illum" :: t :: rest) ->
  RustStd.parse_usize t = Some k -> illum_number k i ->
  (rest = [] \/ exists rest', rest = lit "newmtl" :: rest') ->
  parse input = Ok set -> nth_error (materials set) (length f) = Some m -> illumination_model m = i.
Proof.
  intros input set f ts n ss ts' t k i rest m Hf Hs Ht Hk Hi Hrest Hok Hm.
  destruct (parsed_says _ _ Hok) as (g & (ts0 & Ht0 & Hg) & Eset).
  pose proof Ht0 as Ht1. apply tokenizes_iff in Ht, Ht0. rewrite <- Ht in Ht0. clear Ht. subst ts0.
  assert (Hall : says_settings (ss ++ [SetIllum i]) (ts' ++ [lit "illum"; t])).
  { apply settings_app; auto. change [lit "illum"; t] with ([lit "illum"; t] ++ []). constructor; [econstructor; eauto|constructor]. }
  assert (Hg' : exists g', g = f ++ (n, ss ++ [SetIllum i]) :: g').
  { destruct Hf as (b & u & -> & Hu). destruct Hg as (b' & u' & E & Hu'). rewrite <- app_assoc in E.
    assert (Hne : forall v w, at_end (v ++ lit "newmtl" :: w) <-> at_end v \/ v = []).
    { intros v w. split.
      - intros [C|(r & C)]; [destruct v; discriminate|]. destruct v; auto. injection C as -> C. left. right. eauto.
      - intros [[->|(r & ->)]| ->]; right; cbn; eauto. }
    apply newlines_one in E.
    2:{ apply at_end_not_nl. apply Hne. left. eapply materials_at_end; eauto. }
    2:{ apply at_end_not_nl. eapply materials_at_end; eauto. }
    destruct E as [_ E]. subst u'. clear Ht1. clear Eset Hok Hm. revert g Hu'.
    induction Hu as [|nm s0 t0 f0 t1 Hs0 Hu IH]; intros g Hu'.
    - cbn [app] in Hu'. remember (lit "newmtl" :: n :: ts' ++ lit "illum" :: t :: rest) as all eqn:E2.
      destruct Hu' as [|nm' s1 t1 g' t2 Hs1 Hg1]; [discriminate|]. injection E2 as E3 E2. subst nm'. cbn [app].
      assert (E4 : t1 ++ t2 = (ts' ++ [lit "illum"; t]) ++ rest) by (rewrite <- app_assoc; exact E2). clear E2. rename E4 into E2.
      destruct (settings_one _ _ Hs1 _ _ _ _ Hall (materials_at_end _ _ Hg1) Hrest E2) as (-> & _ & _). eauto.
    - cbn [app] in Hu'. rewrite <- app_assoc in Hu'.
      remember (lit "newmtl" :: nm :: t0 ++ t1 ++ lit "newmtl" :: n :: ts' ++ lit "illum" :: t :: rest) as all eqn:E2.
      destruct Hu' as [|nm' s1 t2 g' t3 Hs1 Hg1]; [discriminate|]. injection E2 as E3 E2. subst nm'.
      assert (Hend : at_end (t1 ++ lit "newmtl" :: n :: ts' ++ lit "illum" :: t :: rest)).
      { apply Hne. left. eapply materials_at_end; eauto. }
      destruct (settings_one _ _ Hs1 _ _ _ _ Hs0 (materials_at_end _ _ Hg1) Hend E2) as (-> & _ & ->).
      destruct (IH g' Hg1) as (g2 & ->); auto. cbn. eauto. }
  destruct Hg' as (g' & ->).
  eapply (illum_last input set _ (length f) n (ss ++ [SetIllum i]) m Hok); [exists (ts ++ lit "newmtl" :: n :: ts' ++ lit "illum" :: t :: rest); split; [exact Ht1|exact Hg]|exact Hm| |reflexivity|auto].
  rewrite nth_error_app2 by lia. now rewrite Nat.sub_diag.
Qed.

Lemma names_in_order : forall input set f, parse input = Ok set -> text_says input f ->
  map name (materials set) = map fst f.
Proof.
  intros input set f H Hf. rewrite (parsed_means _ _ _ H Hf). cbn. rewrite map_map. apply map_ext. now intros [].
Qed.
