(** Lines and carriage returns in MTL texts. *)
From Verif Require Import LexerProofs ConsumeProofs TextProofs PlaceSpec Lines.
From Verif Require Import MtlModel MtlLineSpec MtlTop MtlTopLines MtlFacts.
Local Open Scope list_scope.

Lemma says_cut : forall s a b, says s (a ++ nl :: b) -> setting_names s = [nl].
Proof.
  intros s a b H. pose proof (says_nl _ _ _ H) as ->.
  inversion H as [f r g b' x y z Hr Hg Hb E1 E|f t x Ht E1 E|t n i Ht Hi E1 E|f w nm Hw E1 E]; subst.
  - destruct a as [|t1 [|t2 [|t3 [|t4 a]]]]; cbn in E; injection E; intros; subst; try discriminate; destruct a; discriminate.
  - destruct a as [|t1 [|t2 a]]; cbn in E; injection E; intros; subst; try discriminate; destruct a; discriminate.
  - destruct a as [|t1 [|t2 a]]; cbn in E; try discriminate E; injection E; intros; subst; try discriminate; destruct a; discriminate.
  - destruct a as [|t1 [|t2 a]]; cbn in E; injection E; intros; subst; try discriminate; auto. destruct a; discriminate.
Qed.

Lemma settings_cut : forall ss ts, says_settings ss ts -> ~ In nl (flat_map setting_names ss) -> forall a b, ts = a ++ nl :: b ->
  exists ss1 ss2, ss = ss1 ++ ss2 /\ says_settings ss1 a /\ says_settings ss2 b.
Proof.
  intros ss ts H. induction H as [|ss ts H IH|s line ss ts Hs H IH]; intros Hn a b E.
  - destruct a; discriminate.
  - destruct a as [|t a]; cbn in E; injection E; intros; subst.
    + exists [], ss. repeat split; auto. constructor.
    + destruct (IH Hn _ _ eq_refl) as (ss1 & ss2 & -> & K1 & K2). exists ss1, ss2. repeat split; auto. now constructor.
  - cbn in Hn. rewrite in_app_iff in Hn. apply split_at_nl in E. destruct E as [(e & -> & ->)|(e & -> & ->)].
    + exfalso. apply Hn. left. rewrite (says_cut _ _ _ Hs). now left.
    + destruct (IH ltac:(tauto) _ _ eq_refl) as (ss1 & ss2 & -> & K1 & K2). exists (s :: ss1), ss2. repeat split; auto. now constructor.
Qed.

Lemma materials_cut : forall f ts, says_materials f ts -> ~ In nl (file_names f) -> forall a b, ts = a ++ nl :: b ->
  exists f1 ts1 name ss1 us1 ss2 us2 f2 ts2, f = f1 ++ (name, ss1 ++ ss2) :: f2 /\
    a = ts1 ++ lit "newmtl" :: name :: us1 /\ b = us2 ++ ts2 /\
    says_materials f1 ts1 /\ says_settings ss1 us1 /\ says_settings ss2 us2 /\ says_materials f2 ts2.
Proof.
  intros f ts H. induction H as [|name ss ts f ts' Hs H IH]; intros Hn a b E.
  - destruct a; discriminate.
  - cbn in Hn. rewrite in_app_iff in Hn. destruct a as [|t [|t1 a]]; cbn in E; try discriminate.
    + injection E; intros; subst. exfalso. apply Hn. now left.
    + injection E as <- <- E. apply split_at_nl in E. destruct E as [(e & -> & ->)|(e & -> & ->)].
      * destruct (settings_cut _ _ Hs ltac:(tauto) _ _ eq_refl) as (ss1 & ss2 & -> & K1 & K2).
        exists [], [], name, ss1, a, ss2, e, f, ts'. repeat split; auto. constructor.
      * destruct (IH ltac:(unfold file_names; tauto) _ _ eq_refl)
          as (f1 & ts1 & nm & ss1 & us1 & ss2 & us2 & f2 & ts2 & -> & -> & -> & K1 & K2 & K3 & K4).
        exists ((name, ss) :: f1), (lit "newmtl" :: name :: ts ++ ts1), nm, ss1, us1, ss2, us2, f2, ts2.
        repeat split; auto.
        -- cbn. now rewrite <- app_assoc.
        -- now constructor.
Qed.

Lemma cr_not_keyword : ~ keyword [CR].
Proof.
  intros [([] & K)|[([] & K)|[K|(f & K)]]]; try discriminate. inversion K.
Qed.

Lemma newlines_cut : forall n a e, repeat nl n = a ++ nl :: e -> a = repeat nl (length a).
Proof.
  intros n a. revert n. induction a as [|x a IH]; intros [|n] e E; cbn in E; try discriminate; auto.
  injection E as <- E. cbn. f_equal. eauto.
Qed.

Lemma file_cut : forall f a b rest, says_file f (a ++ nl :: b) -> ~ In nl (file_names f) ->
  fails_file (a ++ [CR] :: rest) (if in_dec (list_eq_dec ascii_dec) (lit "newmtl") a then (ErrorParsingMaterial, msg_material [CR]) else (ExpectedEndOfInput, msg_not_end [CR])) ([CR] :: rest).
Proof.
  intros f a b rest (n & ts & E & H) Hn. symmetry in E. apply split_at_nl in E. destruct E as [(e & E & ->)|(e & -> & ->)].
  - rewrite (newlines_cut _ _ _ E). destruct in_dec as [K|K].
    + apply repeat_spec in K. discriminate.
    + apply fails_start; discriminate.
  - destruct (materials_cut _ _ H Hn _ _ eq_refl) as (f' & us & nm & ss & vs & _ & _ & _ & _ & _ & -> & _ & K1 & K2 & _).
    destruct in_dec as [K|K].
    + replace ((repeat nl n ++ us ++ lit "newmtl" :: nm :: vs) ++ [CR] :: rest)
        with ((repeat nl n ++ us) ++ lit "newmtl" :: nm :: vs ++ [CR] :: rest) by (rewrite <- !app_assoc; reflexivity).
      apply (fails_in f' _ nm ss).
      * exists n, us. auto.
      * exact K2.
      * apply fails_unknown; try discriminate. apply cr_not_keyword.
    + exfalso. apply K. rewrite !in_app_iff. right. right. now left.
Qed.

(** A carriage return in place of the end of any line. *)
Theorem carriage_return : forall a b rest f ts, text_says (a ++ LF :: b) f -> ~ In nl (file_names f) -> tokenizes a ts ->
  (In (lit "newmtl") ts -> parse (a ++ CR :: rest) = Err (mkParseError (line_after a) ErrorParsingMaterial (msg_material [CR]))) /\
  (~ In (lit "newmtl") ts -> parse (a ++ CR :: rest) = Err (mkParseError (line_after a) ExpectedEndOfInput (msg_not_end [CR]))).
Proof.
  intros a b rest f ts (us & Hu & H) Hn Ha.
  assert (E : us = ts ++ nl :: lex b) by (eapply tokenizes_det; [exact Hu|apply tokenizes_newline; [exact Ha|apply lex_tokenizes]]).
  subst us. pose proof (file_cut _ _ _ (lex rest) H Hn) as K.
  assert (Hc : line_end CR) by now right.
  assert (H2 : tokenizes (CR :: rest) ([CR] :: lex rest)) by (apply tk_line_end; [exact Hc|apply lex_tokenizes]).
  assert (H3 : tokenizes (a ++ CR :: rest) (ts ++ [CR] :: lex rest)) by (apply tokenizes_break; [exact Hc|exact Ha|apply lex_tokenizes]).
  split; intros Hi; apply parse_err_iff; exists a, (CR :: rest), ts, ([CR] :: lex rest); eexists (_, _); repeat split; try eassumption;
    destruct in_dec as [K1|K1]; try contradiction; exact K.
Qed.

Lemma crlf_front : forall a b, ~ In LF a -> crlf (a ++ b) = a ++ crlf b.
Proof.
  intros a b. induction a as [|c a IH]; intros H; cbn; auto. destruct (Ascii.eqb_spec c LF) as [->|_].
  - exfalso. apply H. now left.
  - f_equal. apply IH. intros K. apply H. now right.
Qed.

Theorem crlf_fails : forall a b f ts, text_says (a ++ LF :: b) f -> ~ In nl (file_names f) -> ~ In LF a -> tokenizes a ts ->
  parse (crlf (a ++ LF :: b)) = Err (match ts with [] => mkParseError 1 ExpectedEndOfInput (msg_not_end [CR])
                                     | _ => mkParseError 1 ErrorParsingMaterial (msg_material [CR]) end).
Proof.
  intros a b f ts H Hn Ha Ht. rewrite crlf_front; auto. change (crlf (LF :: b)) with (CR :: LF :: crlf b).
  assert (E : line_after a = 1). { unfold line_after. destruct (count_occ_not_In ascii_dec a LF) as [K _]. rewrite K; auto. }
  destruct (carriage_return _ _ (LF :: crlf b) _ _ H Hn Ht) as [K1 K2]. rewrite E in *.
  destruct ts as [|t ts]; [apply K2; intros []|]. apply K1. destruct H as (us & Hu & n & vs & Ev & Hm).
  assert (Eu : us = (t :: ts) ++ nl :: lex b) by (eapply tokenizes_det; [exact Hu|apply tokenizes_newline; [exact Ht|apply lex_tokenizes]]).
  rewrite Ev in Eu. destruct n as [|n]; cbn in Eu.
  - destruct Hm; cbn in Eu; [discriminate|]. injection Eu as <- _. now left.
  - injection Eu as <- _. exfalso. pose proof (count_nl_line _ _ Ht) as C. unfold line_after in E. change (count_nl (nl :: ts)) with (S (count_nl ts)) in C. lia.
Qed.

(** * Lines *)

Lemma line_not_nl : forall line ts, tokenizes line ts -> Forall (fun c => ~ line_end c) line -> ~ In nl ts.
Proof.
  intros line ts H. induction H as [|c s us Hc H IH|c s us Hc H IH|text s us Hx Hs H IH|w s us Hw Hfw Hs H IH]; intros HL K.
  - destruct K.
  - inversion HL as [|? ? ? H3]; subst. exact (IH H3 K).
  - inversion HL; subst. contradiction.
  - inversion HL as [|? ? ? HL']; subst. apply Forall_app in HL'. apply IH; tauto.
  - apply Forall_app in HL. destruct HL as [HL HL']. destruct K as [->|K]; [|exact (IH HL' K)]. inversion HL as [|? ? K1]; subst. apply K1. now left.
Qed.

Lemma settings_word : forall ss t ts, says_settings ss (t :: ts) -> t <> nl -> keyword t.
Proof.
  intros ss t ts H Hn. remember (t :: ts) as u eqn:E. revert E. destruct H as [|ss us H|s line ss us Hs H]; intros E.
  - discriminate.
  - injection E as E _. now symmetry in E.
  - unfold keyword. inversion Hs; subst; cbn in E; injection E as E _; subst t; eauto.
Qed.

Lemma materials_word : forall f t ts, says_materials f (t :: ts) -> t = lit "newmtl".
Proof. intros f t ts H. now inversion H. Qed.

Lemma settings_then : forall ss us f vs t ts, says_settings ss us -> says_materials f vs -> us ++ vs = t :: ts -> t <> nl ->
  keyword t \/ t = lit "newmtl".
Proof.
  intros ss [|u us] f vs t ts Hs Hm E Hn; cbn in E.
  - right. subst vs. eapply materials_word; eauto.
  - injection E as -> E. left. eapply settings_word; eauto.
Qed.

Lemma newlines_then : forall n vs t ts, repeat nl n ++ vs = t :: ts -> t <> nl -> vs = t :: ts.
Proof. intros [|n] vs t ts E Hn; auto. cbn in E. injection E as E _. now symmetry in E. Qed.

Lemma newlines_rest : forall n a e, repeat nl n = a ++ nl :: e -> e = repeat nl (length e).
Proof.
  intros n a. revert n. induction a as [|x a IH]; intros [|n] e E; cbn in E; try discriminate.
  - injection E as <-. now rewrite repeat_length.
  - injection E as _ E. eauto.
Qed.

(** Every line starts between statements. *)
Lemma settings_line : forall ss ts, says_settings ss ts -> forall a b, ts = a ++ nl :: b ->
  exists ss1 ss2, ss = ss1 ++ ss2 /\ says_settings ss1 (a ++ [nl]) /\ says_settings ss2 b.
Proof.
  intros ss ts H. induction H as [|ss ts H IH|s line ss ts Hs H IH]; intros a b E.
  - destruct a; discriminate.
  - destruct a as [|t a]; cbn in E; injection E; intros; subst.
    + exists [], ss. repeat split; auto. cbn. repeat constructor.
    + destruct (IH _ _ eq_refl) as (ss1 & ss2 & -> & K1 & K2). exists ss1, ss2. repeat split; auto. cbn. now constructor.
  - apply split_at_nl in E. destruct E as [(e & -> & ->)|(e & -> & ->)].
    + pose proof (says_nl _ _ _ Hs) as ->. exists [s], ss. repeat split; auto. rewrite <- (app_nil_r (a ++ [nl])). constructor; auto. constructor.
    + destruct (IH _ _ eq_refl) as (ss1 & ss2 & -> & K1 & K2). exists (s :: ss1), ss2. repeat split; auto. rewrite <- app_assoc. now constructor.
Qed.

Lemma materials_line : forall f ts, says_materials f ts -> forall a b, ts = a ++ nl :: b ->
  exists f1 ts1 name ss1 us1 ss2 us2 f2 ts2, f = f1 ++ (name, ss1 ++ ss2) :: f2 /\
    a ++ [nl] = ts1 ++ lit "newmtl" :: name :: us1 /\ b = us2 ++ ts2 /\
    says_materials f1 ts1 /\ says_settings ss1 us1 /\ says_settings ss2 us2 /\ says_materials f2 ts2.
Proof.
  intros f ts H. induction H as [|name ss ts f ts' Hs H IH]; intros a b E.
  - destruct a; discriminate.
  - destruct a as [|t [|t1 a]]; cbn in E; try discriminate.
    + injection E; intros; subst. exists [], [], nl, [], [], ss, ts, f, ts'. repeat split; auto; constructor.
    + injection E as <- <- E. apply split_at_nl in E. destruct E as [(e & -> & ->)|(e & -> & ->)].
      * destruct (settings_line _ _ Hs _ _ eq_refl) as (ss1 & ss2 & -> & K1 & K2).
        exists [], [], name, ss1, (a ++ [nl]), ss2, e, f, ts'. repeat split; auto. constructor.
      * destruct (IH _ _ eq_refl) as (f1 & ts1 & nm & ss1 & us1 & ss2 & us2 & f2 & ts2 & -> & E & -> & K1 & K2 & K3 & K4).
        exists ((name, ss) :: f1), (lit "newmtl" :: name :: ts ++ ts1), nm, ss1, us1, ss2, us2, f2, ts2.
        repeat split; auto.
        -- cbn. rewrite <- !app_assoc. now rewrite E.
        -- now constructor.
Qed.

Theorem first_word : forall input f line rest t ts, text_says input f ->
  at_line input line rest -> starts_with line_end rest -> tokenizes line (t :: ts) -> keyword t \/ t = lit "newmtl".
Proof.
  intros input f line rest t ts (T' & HT' & H) HL Hr Ht.
  destruct (line_rest _ _ _ Ht Hr) as (tr & Htr). destruct (line_tokens_place _ _ _ _ _ HL Htr) as (T & HT & HP).
  rewrite (tokenizes_det _ _ _ HT' HT) in H. assert (Hnl : t <> nl).
  { intros ->. destruct HL as [HL _]. apply (line_not_nl _ _ Ht HL). now left. }
  destruct H as (n & vs & E & Hm). destruct HP as [->|(before & ->)].
  - symmetry in E. apply newlines_then in E; auto. subst vs. right. eapply materials_word; eauto.
  - symmetry in E. apply split_at_nl in E. destruct E as [(e & E & E2)|(e & -> & ->)].
    + symmetry in E2. rewrite (newlines_rest _ _ _ E) in E2. apply newlines_then in E2; auto. subst vs. right. eapply materials_word; eauto.
    + destruct (materials_line _ _ Hm _ _ eq_refl) as (f1 & ts1 & nm & ss1 & us1 & ss2 & us2 & f2 & ts2 & _ & _ & Eb & K1 & K2 & K3 & K4).
      symmetry in Eb. eapply settings_then; eauto.
Qed.

Theorem cut_text : forall a b f, text_says (a ++ LF :: b) f -> exists f', cut_file f f' /\ text_says (a ++ [LF]) f'.
Proof.
  intros a b f (T' & HT' & n & vs & E & Hm).
  rewrite (tokenizes_det _ _ _ HT' (tokenizes_newline _ _ _ _ (lex_tokenizes a) (lex_tokenizes b))) in E.
  assert (Ha : tokenizes (a ++ [LF]) (lex a ++ [nl])) by (apply tokenizes_newline; [apply lex_tokenizes|constructor]).
  symmetry in E. apply split_at_nl in E. destruct E as [(e & E & E2)|(e & Ea & ->)].
  - exists []. split; [constructor|]. exists (lex a ++ [nl]). split; [exact Ha|]. exists (length (lex a) + 1), []. split; [|constructor].
    rewrite app_nil_r, repeat_app. f_equal. eapply newlines_cut; eauto.
  - destruct (materials_line _ _ Hm _ _ eq_refl) as (f1 & ts1 & nm & ss1 & us1 & ss2 & us2 & f2 & ts2 & -> & Ee & _ & K1 & K2 & _ & _).
    exists (f1 ++ [(nm, ss1)]). split; [constructor|]. exists (lex a ++ [nl]). split; [exact Ha|].
    exists n, (ts1 ++ lit "newmtl" :: nm :: us1). split; [rewrite Ea, <- app_assoc; now rewrite Ee|]. clear - K1 K2.
    induction K1 as [|nm' ss' us' f' vs' Hs H IH]; cbn.
    + rewrite <- (app_nil_r us1). constructor; auto. constructor.
    + rewrite <- app_assoc. now constructor.
Qed.

Theorem cut_parses : forall a b set, parse (a ++ LF :: b) = Ok set -> exists set', parse (a ++ [LF]) = Ok set' /\
  (materials set' = [] \/ exists before m m' after, materials set = before ++ m :: after /\ materials set' = before ++ [m'] /\ name m' = name m).
Proof.
  intros a b set P. apply parsed_says in P. destruct P as (f & H & ->). destruct (cut_text _ _ _ H) as (f' & Hc & H').
  exists (file_means f'). split; [now apply parse_says|]. destruct Hc as [f|f1 n ss1 ss2 f2]; [now left|]. right. unfold file_means. cbn.
  rewrite !map_app. cbn. eexists _, _, _, _. split; [reflexivity|]. split; reflexivity.
Qed.

Theorem cut_says : forall a b f, text_says (a ++ LF :: b) f ->
  exists f', cut_file f f' /\ text_says (a ++ [LF]) f' /\ parse (a ++ [LF]) = Ok (file_means f').
Proof. intros a b f H. destruct (cut_text _ _ _ H) as (f' & K1 & K2). exists f'. split; auto. split; auto. now apply parse_says. Qed.

Theorem parsed_first_word : forall input set line rest t ts, parse input = Ok set ->
  at_line input line rest -> starts_with line_end rest -> tokenizes line (t :: ts) -> keyword t \/ t = lit "newmtl".
Proof. intros input set line rest t ts P. apply parsed_says in P. destruct P as (f & H & _). intros. eapply first_word; eauto. Qed.
