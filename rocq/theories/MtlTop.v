(** The results of [mtl::parse] on whole texts. *)
From Verif Require Import MtlModel SourceProofs ConsumeProofs LexerProofs TotalProofs MtlSpec MtlRun TextProofs.
Local Open Scope list_scope.

(** * The value of a material *)

Definition or_some {A} (o d : option A) : option A := match o with Some a => Some a | None => d end.

Definition merge (m : material) (ss : list setting) : material :=
  let color f d := or_else (last_of (given_color f) ss) d in
  let map f d := or_some (last_of (given_map f) ss) d in
  mkMaterial (name m) (color Ka (color_ambient m)) (color Kd (color_diffuse m)) (color Ks (color_specular m))
    (color Ke (color_emissive m))
    (or_else (last_of (given_number Ns) ss) (specular_exponent m))
    (or_else (last_of (given_number D) ss) (dissolve m))
    (or_some (last_of (given_number Ni) ss) (optical_density m))
    (or_else (last_of given_illum ss) (illumination_model m))
    (map MapKa (map_ambient m)) (map MapKd (map_diffuse m)) (map MapKs (map_specular m)) (map MapKe (map_emissive m))
    (map MapNs (map_specular_exponent m)) (map MapBump (map_bump m)) (map Disp (map_displacement m))
    (map MapD (map_dissolve m)) (map Decal (map_decal m)).

Lemma else_cons : forall A (g : setting -> option A) s ss d,
  or_else (last_of g (s :: ss)) d = or_else (last_of g ss) (or_else (g s) d).
Proof. intros. cbn. now destruct (last_of g ss). Qed.
Lemma some_cons : forall A (g : setting -> option A) s ss d,
  or_some (last_of g (s :: ss)) d = or_some (last_of g ss) (or_some (g s) d).
Proof. intros. cbn. now destruct (last_of g ss). Qed.

Lemma merge_cons : forall m s ss, merge (apply_setting m s) ss = merge m (s :: ss).
Proof.
  intros m s ss. unfold merge. cbv zeta. rewrite !else_cons, !some_cons.
  destruct s as [[]|[]| |[]]; reflexivity.
Qed.

Lemma fold_merge : forall ss m, fold_left apply_setting ss m = merge m ss.
Proof.
  induction ss as [|s ss IH]; intros m; cbn [fold_left].
  - destruct m; reflexivity.
  - rewrite IH. apply merge_cons.
Qed.

Lemma or_some_none : forall A (o : option A), or_some o None = o.
Proof. now intros A []. Qed.

Lemma run_material_means : forall m, run_material m = material_of m.
Proof.
  intros [nm ss]. unfold run_material. cbn [fst snd]. rewrite fold_merge. unfold merge, material_of. cbn [fst snd].
  now rewrite !or_some_none.
Qed.

(** * Runs that succeed *)

Lemma mtl_rest_end : forall fuel k ms l, 0 < k ->
  mtl_rest fuel k ms (list_parser l []) = (Ok (mkMaterialSet ms), list_parser l []).
Proof. intros fuel [|k] ms l Hk; [lia|]. reflexivity. Qed.

Lemma skip_repeat : forall K fuel n l ts, length (repeat nl n ++ ts) < fuel -> hd_error ts <> Some nl ->
  skip_zero_or_more_newlines (K := K) fuel (list_parser l (repeat nl n ++ ts)) = (Ok tt, list_parser (l + n) ts).
Proof.
  intros K fuel n. induction n as [|n IH]; intros l ts Hl Hn; cbn [repeat app].
  - rewrite Nat.add_0_r. apply skip_none; auto.
  - rewrite skip_nl; [|exact Hl]. rewrite IH; auto; [|cbn in Hl; lia]. do 2 f_equal. lia.
Qed.

Lemma count_repeat : forall n, count_nl (repeat nl n) = n.
Proof. induction n; [reflexivity|]. cbn [repeat]. rewrite count_nl_cons, IHn. reflexivity. Qed.

Lemma at_end_not_nl : forall ts, at_end ts -> hd_error ts <> Some nl.
Proof. intros ts [->|(ts' & ->)]; discriminate. Qed.

Lemma run_prefix : forall fuel f ts tail l, says_file f ts -> at_end tail -> length (ts ++ tail) < fuel ->
  exists k, length tail < k /\
    parse_mtlset fuel (list_parser l (ts ++ tail)) =
    mtl_rest fuel k (map material_of f) (list_parser (l + count_nl ts) tail).
Proof.
  intros fuel f ts tail l (n & ts' & -> & H) Ht Hl. rewrite mtlset_rest. rewrite <- app_assoc in *.
  unfold bind at 1. rewrite skip_repeat; auto; [|apply at_end_not_nl; eapply materials_end_at; eauto].
  rewrite app_length in Hl.
  destruct (mtl_rest_materials fuel f ts' H fuel [] (l + n) tail Ht) as (k & Hk & E); [lia|lia|].
  exists k. split; auto. rewrite E. cbn [app]. rewrite count_nl_app, count_repeat, Nat.add_assoc.
  now rewrite (map_ext _ _ run_material_means).
Qed.

Lemma run_file : forall fuel f ts l, says_file f ts -> length ts < fuel ->
  parse_mtlset fuel (list_parser l ts) = (Ok (file_means f), list_parser (l + count_nl ts) []).
Proof.
  intros fuel f ts l H Hl. destruct (run_prefix fuel f ts [] l H) as (k & Hk & E); [now left|now rewrite app_nil_r|].
  rewrite app_nil_r in E. rewrite E. apply mtl_rest_end. exact Hk.
Qed.

(** * Runs that fail *)

Definition fails_with {A} (l : nat) (ts : list bytes) (c : complaint) (rest : list bytes)
  (r : outcome (parse_error error_kind) A * parser list_source) : Prop :=
  exists pre, ts = pre ++ rest /\
    r = (Err (mkParseError (l + count_nl pre) (fst c) (snd c)), list_parser (l + count_nl pre) rest).

Definition words : list bytes :=
  [lit "Ka"; lit "Kd"; lit "Ks"; lit "Ke"; lit "d"; lit "illum"; lit "Ns"; lit "Ni";
   lit "map_Ka"; lit "map_Kd"; lit "map_Ks"; lit "map_Ke"; lit "map_Ns"; lit "map_Bump"; lit "bump"; lit "disp";
   lit "map_d"; lit "decal"].

Lemma keyword_words : forall t, keyword t <-> In t words.
Proof.
  intros t. split.
  - intros [(f & ->)|[(f & ->)|[->|(f & H)]]]; try destruct f; try destruct H; cbn; tauto.
  - cbn. intros H. repeat destruct H as [<-|H]; try destruct H; unfold keyword;
      try (left; first [exists Ka; reflexivity|exists Kd; reflexivity|exists Ks; reflexivity|exists Ke; reflexivity]);
      try (right; left; first [exists Ns; reflexivity|exists D; reflexivity|exists Ni; reflexivity]);
      try (right; right; left; reflexivity);
      right; right; right; eexists; constructor.
Qed.

Ltac count_them :=
  rewrite ?count_nl_cons;
  repeat match goal with
  | H : float_token ?t _ |- context [bytes_eqb ?t nl] => rewrite (float_not_nl _ _ H)
  | H : RustStd.parse_usize ?t = Some _ |- context [bytes_eqb ?t nl] => rewrite (usize_not_nl _ _ H)
  end;
  change (count_nl []) with 0;
  repeat match goal with
  | |- context [bytes_eqb (?x :: ?y) nl] => change (bytes_eqb (x :: y) nl) with false
  | |- context [bytes_eqb ?t nl] => destruct (bytes_eqb t nl)
  end; cbn [Nat.add]; rewrite ?Nat.add_0_r; reflexivity.

Lemma not_float_none : forall t, (forall x, ~ float_token t x) -> RustStd.parse_f64 t = None.
Proof. intros t H. destruct (RustStd.parse_f64 t) as [x|] eqn:E; auto. exfalso. eapply H. exact E. Qed.

Lemma no_illum : forall n, (forall i, ~ illum_number n i) -> exists p, n = N.pos p /\ p <> 1%positive /\ p <> 2%positive.
Proof.
  intros n H. destruct n as [|p]; [exfalso; apply (H Ambient); constructor|].
  exists p. split; auto. split; intros ->; [apply (H AmbientDiffuse)|apply (H AmbientDiffuseSpecular)]; constructor.
Qed.

Lemma body_fails : forall fuel m ts c rest l, fails_setting ts c rest ->
  fails_with l ts c rest (parse_material_body fuel m (list_parser l ts)).
Proof.
  intros fuel m ts c rest l H. unfold fails_with.
  destruct H as [f ts c rest H|f r x ts c rest Hr H|f r x g y ts c rest Hr Hg H|f ts c rest H| |t rest H|t n rest Ht H|f w H|t ts Hk Hn Hm].
  - destruct H as [|t rest H].
    + exists [color_word f]. split; [reflexivity|]. destruct f; exec; count_them.
    + exists [color_word f; t]. split; [reflexivity|]. apply not_float_none in H.
      destruct f; exec; rewrite H; cbn [fst snd]; count_them.
  - destruct H as [|t rest H].
    + exists [color_word f; r]. split; [reflexivity|]. destruct f; exec; rewrite Hr; cbn -[Nat.add app]; count_them.
    + exists [color_word f; r; t]. split; [reflexivity|]. apply not_float_none in H.
      destruct f; exec; rewrite Hr; cbn -[Nat.add app]; rewrite H; cbn -[Nat.add app]; count_them.
  - destruct H as [|t rest H].
    + exists [color_word f; r; g]. split; [reflexivity|].
      destruct f; exec; rewrite Hr; cbn -[Nat.add app]; rewrite Hg; cbn -[Nat.add app]; count_them.
    + exists [color_word f; r; g; t]. split; [reflexivity|]. apply not_float_none in H.
      destruct f; exec; rewrite Hr; cbn -[Nat.add app]; rewrite Hg; cbn -[Nat.add app]; rewrite H; cbn -[Nat.add app]; count_them.
  - destruct H as [|t rest H].
    + exists [number_word f]. split; [reflexivity|]. destruct f; exec; count_them.
    + exists [number_word f; t]. split; [reflexivity|]. apply not_float_none in H.
      destruct f; exec; rewrite H; cbn [fst snd]; count_them.
  - exists [lit "illum"]. split; [reflexivity|]. exec; count_them.
  - exists [lit "illum"; t]. split; [reflexivity|]. exec; rewrite H; cbn -[Nat.add app]; count_them.
  - exists [lit "illum"; t]. split; [reflexivity|]. exec; rewrite Ht.
    destruct (no_illum n H) as (p & -> & H1 & H2).
    destruct p as [[]|[]|]; try congruence; cbn -[Nat.add app show_N]; unfold msg_illum; count_them.
  - exists [w]. split; [reflexivity|]. destruct H; exec; count_them.
  - exists []. split; [reflexivity|]. rewrite keyword_words in Hk.
    assert (Hw : forall w, In w words -> bytes_eqb t w = false).
    { intros w Hi. apply bytes_eqb_neq. intros ->. contradiction. }
    apply bytes_eqb_neq in Hm.
    unfold parse_material_body. unfold bind at 1, peek at 1. cbn [list_parser lexer_state line_number ts_peek list_source hd_error is_tok].
    rewrite !Hw by (cbn; tauto). cbn [orb]. rewrite Hm.
    unfold error. cbn [line_number fst snd]. change (count_nl []) with 0. rewrite Nat.add_0_r. reflexivity.
Qed.

Lemma fails_not_nl : forall ts c rest, fails_setting ts c rest -> hd_error ts <> Some nl.
Proof.
  intros ts c rest H. destruct H; cbn; try (destruct f; discriminate); try discriminate.
  - destruct H; discriminate.
  - congruence.
Qed.

Lemma go_on_fails : forall fuel k m l ts c rest, length ts < fuel -> length ts < k -> fails_setting ts c rest ->
  fails_with l ts c rest (go_on fuel k m (list_parser l ts)).
Proof.
  intros fuel k m l ts c rest Hl Hk H. destruct k as [|k]; [lia|].
  unfold go_on. unfold bind at 1. rewrite skip_none; [|exact Hl|eapply fails_not_nl; eauto].
  cbn [loop]. unfold bind. destruct (body_fails fuel m ts c rest l H) as (pre & E & Er). rewrite Er.
  exists pre. split; auto.
Qed.

Lemma run_fails : forall fuel ts c rest l, fails_file ts c rest -> length ts < fuel ->
  fails_with l ts c rest (parse_mtlset fuel (list_parser l ts)).
Proof.
  intros fuel ts c rest l H Hl. destruct H as [n t rest Hn Hm|f ts Hf|f ts nm ss ts' ts'' c rest Hf Hs Hb].
  - exists (repeat nl n). split; [reflexivity|]. rewrite mtlset_rest. unfold bind at 1.
    rewrite skip_repeat; auto; [|cbn; congruence]. rewrite count_repeat. destruct fuel as [|fuel]; [lia|].
    apply bytes_eqb_neq in Hm. unfold mtl_rest. unfold bind at 1. cbn [loop]. unfold bind at 1, mtl_body at 1.
    unfold bind at 1, peek at 1. cbn [list_parser lexer_state line_number ts_peek list_source hd_error is_tok].
    rewrite Hm. reflexivity.
  - destruct (run_prefix fuel f ts [lit "newmtl"] l Hf) as (k & Hk & E); [right; eauto|exact Hl|].
    exists (ts ++ [lit "newmtl"]). split; [now rewrite app_nil_r|]. rewrite E.
    destruct k as [|k]; [lia|]. rewrite count_nl_app.
    change (count_nl [lit "newmtl"]) with 0. rewrite Nat.add_0_r. reflexivity.
  - destruct (run_prefix fuel f ts (lit "newmtl" :: nm :: ts' ++ ts'') l Hf) as (k & Hk & E); [right; eauto|exact Hl|].
    rewrite app_length in Hl. cbn [length] in Hl, Hk.
    pose (l1 := if bytes_eqb nm nl then l + count_nl ts + 1 else l + count_nl ts).
    destruct (go_on_settings fuel ss ts' Hs fuel (set_name material_new nm) l1 ts'') as (k' & Hk' & Eg); [lia|lia|].
    rewrite app_length in Hl.
    destruct (go_on_fails fuel k' (fold_left apply_setting ss (set_name material_new nm)) (l1 + count_nl ts') ts'' c rest)
      as (pre & Ep & Er); [lia|exact Hk'|exact Hb|].
    exists (ts ++ lit "newmtl" :: nm :: ts' ++ pre). split.
    { rewrite Ep. rewrite <- app_assoc. cbn [app]. now rewrite <- app_assoc. }
    rewrite E. destruct k as [|k]; [lia|].
    assert (Em : parse_material fuel (list_parser (l + count_nl ts) (lit "newmtl" :: nm :: ts' ++ ts'')) =
      go_on fuel fuel (set_name material_new nm) (list_parser l1 (ts' ++ ts''))) by reflexivity.
    rewrite Eg, Er in Em.
    unfold mtl_rest. unfold bind at 1. cbn [loop]. unfold bind at 1. unfold mtl_body at 1.
    unfold bind at 1, peek at 1. cbn [list_parser lexer_state line_number ts_peek list_source hd_error is_tok].
    change (bytes_eqb (lit "newmtl") (lit "newmtl")) with true. cbv iota. unfold bind at 1.
    unfold list_parser in *. rewrite Em.
    replace (l1 + count_nl ts' + count_nl pre) with (l + count_nl (ts ++ lit "newmtl" :: nm :: ts' ++ pre)); [reflexivity|].
    rewrite count_nl_app, !count_nl_cons, count_nl_app. change (bytes_eqb (lit "newmtl") nl) with false.
    unfold l1. destruct (bytes_eqb nm nl); lia.
Qed.

(** * Every token list reads or fails *)

Lemma float_cases : forall ts,
  (exists t x rest, ts = t :: rest /\ float_token t x) \/ (exists c rest, not_float ts c rest).
Proof.
  intros [|t rest]; [right; repeat econstructor|].
  destruct (RustStd.parse_f64 t) as [x|] eqn:E; [left; exists t, x, rest; auto|].
  right. exists (ExpectedFloat, msg_float t), rest. constructor. unfold float_token. congruence.
Qed.

Lemma setting_cases : forall ts, at_end ts \/ (exists ts', ts = nl :: ts') \/
  (exists s line rest, ts = line ++ rest /\ says s line) \/ (exists c rest, fails_setting ts c rest).
Proof.
  intros [|t ts]; [left; now left|].
  destruct (bytes_eq_dec t (lit "newmtl")) as [->|Hm]; [left; right; eauto|].
  destruct (bytes_eq_dec t nl) as [->|Hn]; [right; left; eauto|]. right. right.
  destruct (in_dec bytes_eq_dec t words) as [Hw|Hw].
  2:{ right. exists (ErrorParsingMaterial, msg_material t), (t :: ts). constructor; auto. now rewrite keyword_words. }
  apply keyword_words in Hw. destruct Hw as [(f & ->)|[(f & ->)|[->|(f & H)]]].
  - destruct (float_cases ts) as [(r & x & ts1 & -> & Hr)|(c & rest & H)]; [|right; exists c, rest; now apply fails_r].
    destruct (float_cases ts1) as [(g & y & ts2 & -> & Hg)|(c & rest & H)]; [|right; exists c, rest; eapply fails_g; eauto].
    destruct (float_cases ts2) as [(b & z & ts3 & -> & Hb)|(c & rest & H)]; [|right; exists c, rest; eapply fails_b; eauto].
    left. exists (SetColor f (mkColor x y z)), [color_word f; r; g; b], ts3. split; auto. now constructor.
  - destruct (float_cases ts) as [(r & x & ts1 & -> & Hr)|(c & rest & H)]; [|right; exists c, rest; now apply fails_number].
    left. exists (SetNumber f x), [number_word f; r], ts1. split; auto. now constructor.
  - destruct ts as [|t ts]; [right; eexists _, _; apply fails_illum_end|].
    destruct (RustStd.parse_usize t) as [n|] eqn:E; [|right; eexists _, _; now apply fails_illum_integer].
    assert (Hi : (exists i, illum_number n i) \/ (forall i, ~ illum_number n i)).
    { destruct n as [|[[]|[]|]]; try (left; eexists; constructor); right; intros i H; inversion H. }
    destruct Hi as [(i & Hi)|Hi]; [left; exists (SetIllum i), [lit "illum"; t], ts; split; auto; econstructor; eauto|].
    right; eexists _, _; eapply fails_illum; eauto.
  - destruct ts as [|nm ts]; [right; eexists _, _; eapply fails_map; eauto|].
    left. exists (SetMap f nm), [t; nm], ts. split; auto. now constructor.
Qed.

Lemma settings_cases : forall n ts, length ts <= n -> exists ss pre rest,
  ts = pre ++ rest /\ says_settings ss pre /\ (at_end rest \/ exists c rest', fails_setting rest c rest').
Proof.
  induction n as [|n IH]; intros ts Hl.
  - destruct ts; [|cbn in Hl; lia]. exists [], [], []. split; auto. split; [constructor|]. left. now left.
  - destruct (setting_cases ts) as [H|[(ts' & ->)|[(s & line & rest & -> & H)|H]]].
    + exists [], [], ts. repeat split; auto. constructor.
    + destruct (IH ts') as (ss & pre & rest & -> & Hs & Hr); [cbn in Hl; lia|].
      exists ss, (nl :: pre), rest. repeat split; auto. now constructor.
    + destruct (IH rest) as (ss & pre & rest' & -> & Hs & Hr).
      { rewrite app_length in Hl. destruct H; cbn in Hl; lia. }
      exists (s :: ss), (line ++ pre), rest'. split; [now rewrite app_assoc|]. split; auto. now constructor.
    + exists [], [], ts. repeat split; auto. constructor.
Qed.

Lemma materials_cases : forall n ts, length ts <= n -> at_end ts ->
  (exists f, says_materials f ts) \/
  (exists f pre, says_materials f pre /\
    (ts = pre ++ [lit "newmtl"] \/
     exists nm ss ts' ts'' c rest, ts = pre ++ lit "newmtl" :: nm :: ts' ++ ts'' /\ says_settings ss ts' /\ fails_setting ts'' c rest)).
Proof.
  induction n as [|n IH]; intros ts Hl [->|(ts' & ->)]; try (left; exists []; constructor).
  - cbn in Hl. lia.
  - destruct ts' as [|nm ts].
    + right. exists [], []. split; [constructor|]. now left.
    + destruct (settings_cases (length ts) ts) as (ss & pre & rest & -> & Hs & [He|(c & rest' & Hf)]); auto.
      * destruct (IH rest) as [(f & H)|(f & pre' & H & [->|(nm' & ss' & ts1 & ts2 & c & r & -> & Hs' & Hf')])]; auto.
        { cbn in Hl. rewrite app_length in Hl. lia. }
        -- left. exists ((nm, ss) :: f). now constructor.
        -- right. exists ((nm, ss) :: f), (lit "newmtl" :: nm :: pre ++ pre'). split; [now constructor|].
           left. cbn [app]. now rewrite <- app_assoc.
        -- right. exists ((nm, ss) :: f), (lit "newmtl" :: nm :: pre ++ pre'). split; [now constructor|].
           right. exists nm', ss', ts1, ts2, c, r. split; auto. cbn [app]. now rewrite <- app_assoc.
      * right. exists [], []. split; [constructor|]. right. exists nm, ss, pre, rest, c, rest'. auto.
Qed.

Lemma split_newlines : forall ts, exists n rest, ts = repeat nl n ++ rest /\ hd_error rest <> Some nl.
Proof.
  induction ts as [|t ts (n & rest & -> & H)]; [exists 0, []; split; [reflexivity|discriminate]|].
  destruct (bytes_eq_dec t nl) as [->|Hn]; [exists (S n), rest; auto|].
  exists 0, (t :: repeat nl n ++ rest). split; auto. cbn. congruence.
Qed.

Lemma file_cases : forall ts, (exists f, says_file f ts) \/ (exists c rest, fails_file ts c rest).
Proof.
  intros ts. destruct (split_newlines ts) as (n & rest & -> & Hn).
  assert (He : at_end rest \/ exists t ts, rest = t :: ts /\ t <> nl /\ t <> lit "newmtl").
  { destruct rest as [|t ts]; [left; now left|]. destruct (bytes_eq_dec t (lit "newmtl")) as [->|Hm]; [left; right; eauto|].
    right. exists t, ts. repeat split; auto. cbn in Hn. congruence. }
  destruct He as [He|(t & ts & -> & H1 & H2)]; [|right; eexists _, _; apply fails_start; auto].
  destruct (materials_cases (length rest) rest) as [(f & H)|(f & pre & H & [->|(nm & ss & ts1 & ts2 & c & r & -> & Hs & Hf)])]; auto.
  - left. exists f, n, rest. auto.
  - right. exists (EndOfFile, msg_name_end), []. rewrite app_assoc. apply (fails_name f). exists n, pre. auto.
  - right. exists c, r. rewrite app_assoc. eapply (fails_in f); eauto. exists n, pre. auto.
Qed.

(** * Texts *)

Lemma run_input : forall input, parse input = fst (parse_mtlset (fuel_for input) (list_parser 1 (lex input))).
Proof. intros. apply mtl_parse_lex. Qed.

Lemma parse_ok_iff : forall input set,
  parse input = Ok set <-> exists ts f, tokenizes input ts /\ says_file f ts /\ set = file_means f.
Proof.
  intros input set. rewrite run_input. pose proof (lex_fuel input) as Hl. fold (fuel_for input) in Hl. split.
  - intros E. destruct (file_cases (lex input)) as [(f & H)|(c & rest & H)].
    + rewrite (run_file _ f _ _ H Hl) in E. inversion E. exists (lex input), f. split; auto. apply lex_tokenizes.
    + destruct (run_fails _ _ _ _ 1 H Hl) as (pre & _ & Er). rewrite Er in E. discriminate.
  - intros (ts & f & Ht & H & ->). apply tokenizes_iff in Ht. subst ts. now rewrite (run_file _ f _ _ H Hl).
Qed.

Lemma parse_err_iff : forall input e,
  parse input = Err e <->
  exists before after ts rest c,
    input = before ++ after /\ tokenizes before ts /\ tokenizes after rest /\ tokenizes input (ts ++ rest) /\
    fails_file (ts ++ rest) c rest /\ e = mkParseError (line_after before) (fst c) (snd c).
Proof.
  intros input e. rewrite run_input. pose proof (lex_fuel input) as Hl. fold (fuel_for input) in Hl. split.
  - intros E. destruct (file_cases (lex input)) as [(f & H)|(c & rest & H)].
    + rewrite (run_file _ f _ _ H Hl) in E. discriminate.
    + destruct (run_fails _ _ _ _ 1 H Hl) as (pre & Hs & Er). rewrite Er in E. inversion E; subst e.
      destruct (tokenizes_split _ _ (lex_tokenizes input) _ _ Hs) as (s1 & s2 & Ei & H1 & H2).
      exists s1, s2, pre, rest, c. rewrite Hs in H. repeat split; auto.
      * rewrite <- Hs. apply lex_tokenizes.
      * now rewrite (count_nl_line _ _ H1).
  - intros (before & after & ts & rest & c & Ei & H1 & H2 & H3 & Hb & ->).
    apply tokenizes_iff in H3. rewrite <- H3 in *.
    destruct (run_fails _ _ _ _ 1 Hb Hl) as (pre & Hs & Er). apply app_inv_tail in Hs. subst pre. rewrite Er.
    cbn [fst]. now rewrite (count_nl_line _ _ H1).
Qed.
