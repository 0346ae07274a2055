(** Written materials are read back; which materials can be read. *)
From Verif Require Import MtlModel LexerProofs TextProofs NumberProofs FloatProofs FmtProofs WordProofs MtlSpec MtlWriteSpec MtlRun MtlTop MtlFacts.
Local Open Scope list_scope.

(** * Descriptions *)

Lemma last_of_agreed : forall A (g : setting -> option A) ss s x, In s ss -> g s = Some x ->
  (forall s' y, In s' ss -> g s' = Some y -> y = x) -> last_of g ss = Some x.
Proof.
  intros A g ss s x Hin Hs Hall. destruct (last_of g ss) as [y|] eqn:E.
  - apply last_of_in in E. destruct E as (s' & Hs' & Hg). f_equal. eauto.
  - exfalso. clear Hall. induction ss as [|a ss IH]; [destruct Hin|]. cbn in E. destruct (last_of g ss) eqn:E'; [discriminate|].
    destruct Hin as [->|Hin]; [congruence|auto].
Qed.

Lemma given_color_in : forall f s c, given_color f s = Some c -> s = SetColor f c.
Proof. intros f s c H. destruct s as [k c'| | |]; try discriminate; destruct k; destruct f; cbn in H; congruence. Qed.

Lemma given_number_in : forall f s x, given_number f s = Some x -> s = SetNumber f x.
Proof. intros f s c H. destruct s as [|k c'| |]; try discriminate; destruct k; destruct f; cbn in H; congruence. Qed.

Lemma given_illum_in : forall s x, given_illum s = Some x -> s = SetIllum x.
Proof. intros s c H. destruct s; try discriminate; cbn in H; congruence. Qed.

Lemma given_color_self : forall f c, given_color f (SetColor f c) = Some c.
Proof. now intros []. Qed.

Lemma given_number_self : forall f x, given_number f (SetNumber f x) = Some x.
Proof. now intros []. Qed.

Lemma given_map_self : forall f n, given_map f (SetMap f n) = Some n.
Proof. now intros []. Qed.

Lemma f64_dec : forall x y : f64, {x = y} + {x <> y}.
Proof. decide equality; auto using Bool.bool_dec, Pos.eq_dec, Z.eq_dec. Qed.

Lemma color_dec : forall x y : color, {x = y} + {x <> y}.
Proof. decide equality; apply f64_dec. Qed.

Lemma illum_dec : forall x y : illumination, {x = y} + {x <> y}.
Proof. decide equality. Qed.

(** The last of the values given is the only one. *)
Lemma described_value : forall A (dec : forall x y : A, {x = y} + {x <> y}) (g : setting -> option A) ss s x d,
  g s = Some x -> (x <> d -> In s ss) -> (forall s' y, In s' ss -> g s' = Some y -> y = x) ->
  or_else (last_of g ss) d = x.
Proof.
  intros A dec g ss s x d Hs Hd Hall. destruct (dec x d) as [->|Hn].
  - destruct (last_of g ss) as [y|] eqn:E; [|reflexivity]. apply last_of_in in E. destruct E as (s' & Hs' & Hg). cbn. eauto.
  - now rewrite (last_of_agreed _ _ _ _ _ (Hd Hn) Hs Hall).
Qed.

Lemma described_option : forall A (g : setting -> option A) ss (o : option A),
  (forall x, o = Some x -> exists s, In s ss /\ g s = Some x) -> (forall s y, In s ss -> g s = Some y -> o = Some y) ->
  last_of g ss = o.
Proof.
  intros A g ss o Ho Hall. destruct o as [x|].
  - destruct (Ho x eq_refl) as (s & Hin & Hs). eapply last_of_agreed; eauto. intros s' y Hs' Hg. specialize (Hall _ _ Hs' Hg). congruence.
  - apply last_of_none. intros s Hs. destruct (g s) eqn:E; [|reflexivity]. specialize (Hall _ _ Hs E). discriminate.
Qed.

Lemma described : forall ss m, describes ss m -> material_of (name m, ss) = m.
Proof.
  intros ss m H. assert (K : forall s, In s ss -> agrees m s).
  { pose proof (described_true _ _ H) as K. rewrite Forall_forall in K. exact K. }
  assert (Hc : forall f, or_else (last_of (given_color f) ss) black = color_of f m).
  { intros f. apply (described_value _ color_dec _ _ (SetColor f (color_of f m))); [apply given_color_self|apply (described_color _ _ H)|].
    intros s y Hs Hg. apply given_color_in in Hg. subst s. apply K in Hs. cbn in Hs. congruence. }
  assert (H1 : or_else (last_of (given_number Ns) ss) f64_zero = specular_exponent m).
  { apply (described_value _ f64_dec _ _ (SetNumber Ns (specular_exponent m))); [reflexivity|apply (described_exponent _ _ H)|].
    intros s y Hs Hg. apply given_number_in in Hg. subst s. apply K in Hs. cbn in Hs. congruence. }
  assert (H2 : or_else (last_of (given_number D) ss) f64_one = dissolve m).
  { apply (described_value _ f64_dec _ _ (SetNumber D (dissolve m))); [reflexivity|apply (described_dissolve _ _ H)|].
    intros s y Hs Hg. apply given_number_in in Hg. subst s. apply K in Hs. cbn in Hs. congruence. }
  assert (H3 : last_of (given_number Ni) ss = optical_density m).
  { apply described_option; [intros x E; exists (SetNumber Ni x); split; [now apply (described_density _ _ H)|reflexivity]|].
    intros s y Hs Hg. apply given_number_in in Hg. subst s. now apply K in Hs. }
  assert (H4 : or_else (last_of given_illum ss) AmbientDiffuseSpecular = illumination_model m).
  { apply (described_value _ illum_dec _ _ (SetIllum (illumination_model m))); [reflexivity|apply (described_illum _ _ H)|].
    intros s y Hs Hg. apply given_illum_in in Hg. subst s. apply K in Hs. cbn in Hs. congruence. }
  assert (Hm : forall f, last_of (given_map f) ss = map_of f m).
  { intros f. apply described_option; [intros x E; exists (SetMap f x); split; [now apply (described_map _ _ H)|apply given_map_self]|].
    intros s y Hs Hg. apply given_map_in in Hg. subst s. now apply K in Hs. }
  unfold material_of. cbn [fst snd]. rewrite !Hc, H1, H2, H3, H4, !Hm. now destruct m.
Qed.

Lemma settings_says : forall ms tss, Forall2 writes_material ms tss -> exists f, says_materials f (concat tss) /\ map material_of f = ms.
Proof.
  intros ms tss H. induction H as [|m ts ms tss (ss & ts' & Hd & Hs & ->) H IH]; [exists []; split; constructor|].
  destruct IH as (f & Hf & <-). exists ((name m, ss) :: f). split; [|cbn [map]; now rewrite described].
  cbn [concat app]. now apply materials_more.
Qed.

Theorem written_materials : forall input ms tss n, Forall2 writes_material ms tss ->
  tokenizes input (repeat nl n ++ concat tss) -> parse input = Ok (mkMaterialSet ms).
Proof.
  intros input ms tss n H Ht. apply settings_says in H. destruct H as (f & Hf & <-).
  apply (parse_says input f). exists (repeat nl n ++ concat tss). split; [exact Ht|]. exists n, (concat tss). auto.
Qed.

(** * The writer *)

Definition optional_setting {A} (f : A -> setting) (o : option A) : list setting :=
  match o with Some a => [f a] | None => [] end.

Definition settings_of (m : material) : list setting :=
  [SetColor Ka (color_ambient m); SetColor Kd (color_diffuse m); SetColor Ks (color_specular m); SetColor Ke (color_emissive m);
   SetNumber Ns (specular_exponent m); SetNumber D (dissolve m)] ++
  optional_setting (SetNumber Ni) (optical_density m) ++
  [SetIllum (illumination_model m)] ++
  optional_setting (SetMap MapKa) (map_ambient m) ++
  optional_setting (SetMap MapKd) (map_diffuse m) ++
  optional_setting (SetMap MapKs) (map_specular m) ++
  optional_setting (SetMap MapKe) (map_emissive m) ++
  optional_setting (SetMap MapNs) (map_specular_exponent m) ++
  optional_setting (SetMap MapBump) (map_bump m) ++
  optional_setting (SetMap Disp) (map_displacement m) ++
  optional_setting (SetMap MapD) (map_dissolve m) ++
  optional_setting (SetMap Decal) (map_decal m).

Lemma optional_forall : forall A (P : setting -> Prop) (f : A -> setting) o, (forall a, o = Some a -> P (f a)) -> Forall P (optional_setting f o).
Proof. intros A P f [a|] H; cbn; auto. Qed.

Lemma in_optional : forall A (f : A -> setting) a o, o = Some a -> In (f a) (optional_setting f o).
Proof. intros A f a o ->. now left. Qed.

Lemma settings_describe : forall m, describes (settings_of m) m.
Proof.
  intros m. constructor.
  - unfold settings_of. rewrite !Forall_app. repeat split; repeat (apply Forall_cons; [reflexivity|]); try apply Forall_nil;
      apply optional_forall; intros a E; exact E.
  - intros [] _; unfold settings_of; cbn; auto.
  - intros _. unfold settings_of. rewrite in_app_iff. left. cbn. auto 10.
  - intros _. unfold settings_of. rewrite in_app_iff. left. cbn. auto 10.
  - intros x E. unfold settings_of. rewrite !in_app_iff. right. left. now apply in_optional.
  - intros _. unfold settings_of. rewrite !in_app_iff. right. right. left. now left.
  - intros f n E. unfold settings_of. rewrite !in_app_iff. do 3 right.
    assert (K : In (SetMap f n) (optional_setting (SetMap f) (map_of f m))) by now apply in_optional. destruct f; cbn [map_of] in K; tauto.
Qed.

(** A line for each statement. *)
Lemma lines_settings : forall ss lines, Forall2 says ss lines -> says_settings ss (flat_map (fun l => l ++ [nl]) lines).
Proof.
  intros ss lines H. induction H as [|s l ss lines Hs H IH]; [constructor|]. cbn [flat_map]. rewrite <- app_assoc.
  apply settings_more; [exact Hs|]. cbn [app]. now apply settings_blank.
Qed.

Lemma optional_says : forall A (f : A -> setting) (g : A -> list bytes) o, (forall a, o = Some a -> says (f a) (g a)) ->
  Forall2 says (optional_setting f o) (optional_line g o).
Proof. intros A f g [a|] H; cbn; constructor; auto. Qed.

Lemma show_float : forall x, is_f64 x -> float_token (show_f64 x) x.
Proof. intros x H. now apply show_f64_read. Qed.

Lemma color_says : forall f c, color_f64 c -> says (SetColor f c) (color_line f c).
Proof. intros f [r g b] (H1 & H2 & H3). apply says_color; now apply show_float. Qed.

Lemma material_says : forall m, material_f64 m -> exists lines,
  material_lines m = [lit "newmtl"; name m] :: lines /\ Forall2 says (settings_of m) lines.
Proof.
  intros m (Hc & Hs & Hd & Ho). unfold material_lines. cbn [app]. eexists. split; [reflexivity|].
  unfold settings_of. cbn [app].
  apply Forall2_cons; [apply (color_says Ka), (Hc Ka)|]. apply Forall2_cons; [apply (color_says Kd), (Hc Kd)|].
  apply Forall2_cons; [apply (color_says Ks), (Hc Ks)|]. apply Forall2_cons; [apply (color_says Ke), (Hc Ke)|].
  apply Forall2_cons; [apply (says_number Ns), show_float, Hs|]. apply Forall2_cons; [apply (says_number D), show_float, Hd|].
  apply Forall2_app; [apply optional_says; intros x E; apply (says_number Ni), show_float, Ho, E|].
  apply Forall2_cons; [destruct (illumination_model m); eapply says_illum; try (vm_compute; reflexivity); constructor|].
  repeat apply Forall2_app; apply optional_says; intros n _; apply says_map; constructor.
Qed.

Definition material_tokens (m : material) : list bytes := flat_map (fun l => l ++ [nl]) (material_lines m).

Lemma concat_flat_map : forall A B C (f : B -> list C) (g : A -> list B) l, concat (map (fun a => flat_map f (g a)) l) = flat_map f (flat_map g l).
Proof. intros A B C f g l. induction l as [|a l IH]; [reflexivity|]. cbn [map concat flat_map]. now rewrite IH, flat_map_app. Qed.

Lemma material_written : forall m, material_f64 m -> writes_material m (material_tokens m).
Proof.
  intros m H. destruct (material_says m H) as (lines & E & Hs). unfold material_tokens. rewrite E.
  exists (settings_of m), (nl :: flat_map (fun l => l ++ [nl]) lines). split; [apply settings_describe|]. split; [|reflexivity].
  apply settings_blank. now apply lines_settings.
Qed.

Lemma color_line_words : forall f c, Forall word (color_line f c).
Proof. intros f c. unfold color_line. destruct f; words. Qed.

Lemma optional_words : forall A (g : A -> list bytes) o, (forall a, o = Some a -> Forall word (g a)) -> Forall (Forall word) (optional_line g o).
Proof. intros A g [a|] H; cbn; auto. Qed.

Lemma material_lines_words : forall m, names_are word m -> Forall (Forall word) (material_lines m).
Proof.
  intros m (Hn & Hm). unfold material_lines. cbn [app].
  apply Forall_cons; [words|]. do 4 (apply Forall_cons; [apply color_line_words|]). apply Forall_cons; [words|]. apply Forall_cons; [words|].
  apply Forall_app. split; [apply optional_words; intros x _; words|]. apply Forall_cons.
  - assert (Hi : word (illum_digit (illumination_model m))) by (destruct (illumination_model m); apply lit_word; [intros K; discriminate K|reflexivity|intros K; discriminate K|reflexivity|intros K; discriminate K|reflexivity]).
    words.
  - assert (Hk : forall f n, map_of f m = Some n -> word n) by exact Hm.
    repeat (apply Forall_app; split); apply optional_words; intros n E;
      [apply (Hk MapKa) in E|apply (Hk MapKd) in E|apply (Hk MapKs) in E|apply (Hk MapKe) in E|apply (Hk MapNs) in E|apply (Hk MapBump) in E
      |apply (Hk Disp) in E|apply (Hk MapD) in E|apply (Hk Decal) in E]; words.
Qed.

Lemma all_written : forall ms, Forall material_f64 ms -> Forall2 writes_material ms (map material_tokens ms).
Proof. intros ms H. induction H; constructor; auto using material_written. Qed.

Theorem write_materials_read : forall ms, Forall material_f64 ms -> Forall (names_are word) ms ->
  parse (write_materials ms) = Ok (mkMaterialSet ms).
Proof.
  intros ms Hf Hn. apply (written_materials _ ms (map material_tokens ms) 0); [now apply all_written|].
  cbn [repeat app]. unfold material_tokens. rewrite concat_flat_map. apply unlines_unwords.
  apply Forall_forall. intros l Hl. apply in_flat_map in Hl. destruct Hl as (m & Hm & Hl). rewrite Forall_forall in Hn.
  pose proof (material_lines_words m (Hn m Hm)) as K. rewrite Forall_forall in K. auto.
Qed.

(** * What can be read *)

Lemma settings_numbers : forall ss ts, says_settings ss ts ->
  (forall f c, In (SetColor f c) ss -> color_f64 c) /\ (forall f x, In (SetNumber f x) ss -> is_f64 x).
Proof.
  intros ss ts H. induction H as [|ss ts H IH|s line ss ts Hs H IH]; [split; intros; destruct H|exact IH|].
  destruct IH as [I1 I2]. split.
  - intros f c [->|K]; [|eauto]. inversion Hs; subst. repeat split; cbn; eapply parsed_is_f64; eauto.
  - intros f c [->|K]; [|eauto]. inversion Hs; subst. eapply parsed_is_f64; eauto.
Qed.

Lemma material_of_f64 : forall n ss ts, says_settings ss ts -> material_f64 (material_of (n, ss)).
Proof.
  intros n ss ts H. destruct (settings_numbers _ _ H) as [H1 H2].
  assert (Hc : forall f, color_f64 (or_else (last_of (given_color f) ss) black)).
  { intros f. destruct (last_of (given_color f) ss) as [c|] eqn:E; [|repeat split; reflexivity].
    apply last_of_in in E. destruct E as (s & Hs & Hg). apply given_color_in in Hg. subst s. cbn. eauto. }
  assert (Hx : forall f x, last_of (given_number f) ss = Some x -> is_f64 x).
  { intros f x E. apply last_of_in in E. destruct E as (s & Hs & Hg). apply given_number_in in Hg. subst s. eauto. }
  split; [intros []; apply Hc|]. split; [|split; [|exact (Hx Ni)]]; cbn [specular_exponent dissolve material_of snd].
  - destruct (last_of (given_number Ns) ss) eqn:E; [eapply Hx; eauto|reflexivity].
  - destruct (last_of (given_number D) ss) eqn:E; [eapply Hx; eauto|reflexivity].
Qed.

Lemma materials_f64 : forall f ts, says_materials f ts -> Forall material_f64 (map material_of f).
Proof. intros f ts H. induction H; constructor; auto. eapply material_of_f64; eauto. Qed.

Lemma parsed_tokens : forall input set (P : bytes -> Prop), parse input = Ok set -> (forall ts t, tokenizes input ts -> In t ts -> P t) ->
  Forall material_f64 (materials set) /\ Forall (names_are P) (materials set).
Proof.
  intros input set P E HP. apply parsed_says in E. destruct E as (f & (ts & Ht & (n & ts' & -> & H)) & ->). split; [eapply materials_f64; eauto|].
  cbn [file_means materials]. apply Forall_forall. intros m Hm. apply in_map_iff in Hm. destruct Hm as ([nm ss] & <- & Hin).
  destruct (materials_names _ _ H _ _ Hin) as [H1 H2]. split.
  - apply (HP _ nm Ht). apply in_or_app. now right.
  - intros k x E. assert (E' : last_of (given_map k) ss = Some x) by (destruct k; exact E). apply last_of_in in E'.
    destruct E' as (s & Hs & Hg). apply given_map_in in Hg. subst s. apply (HP _ x Ht). apply in_or_app. right. eauto.
Qed.

Lemma material_tokens_are : forall (P : bytes -> Prop) m, (forall w, w <> [] -> forallb plain w = true -> P w) -> P nl ->
  names_are P m -> Forall P (material_tokens m).
Proof.
  intros P m Hp Hnl (Hn & Hm). assert (Hf : forall x, P (show_f64 x)) by (intros x; apply Hp; apply show_f64_plain).
  assert (Hl : forall s, lit s <> [] -> forallb plain (lit s) = true -> P (lit s)) by (intros; now apply Hp).
  assert (Hmap : forall f n (w : string), map_of f m = Some n -> P n) by (intros; eapply Hm; eauto).
  unfold material_tokens. rewrite Forall_flat_map.
  assert (Hone : forall w x, lit w <> [] -> forallb plain (lit w) = true -> P x -> Forall P ([lit w; x] ++ [nl])).
  { intros w x H1 H2 H3. cbn [app]. repeat (apply Forall_cons; auto). }
  assert (Hcol : forall f c, Forall P (color_line f c ++ [nl])).
  { intros f c. unfold color_line. cbn [app]. apply Forall_cons; [destruct f; apply Hl; [intros K; discriminate K|reflexivity|intros K; discriminate K|reflexivity|intros K; discriminate K|reflexivity|intros K; discriminate K|reflexivity]|].
    repeat (apply Forall_cons; auto). }
  assert (Hopt : forall A (g : A -> list bytes) o, (forall a, o = Some a -> Forall P (g a ++ [nl])) -> Forall (fun l => Forall P (l ++ [nl])) (optional_line g o)).
  { intros A g [a|] K; cbn; auto. }
  unfold material_lines. cbn [app].
  repeat (apply Forall_cons; [first [apply Hcol | apply Hone; [intros K; discriminate K|reflexivity|auto]]|]).
  apply Forall_app. split; [apply Hopt; intros x _; apply Hone; [intros K; discriminate K|reflexivity|auto]|].
  apply Forall_cons; [apply Hone; [intros K; discriminate K|reflexivity|]; destruct (illumination_model m); apply Hl; [intros K; discriminate K|reflexivity|intros K; discriminate K|reflexivity|intros K; discriminate K|reflexivity]|].
  repeat (apply Forall_app; split); apply Hopt; intros n E; (apply Hone; [intros K; discriminate K|reflexivity|]);
    [apply (Hm MapKa)|apply (Hm MapKd)|apply (Hm MapKs)|apply (Hm MapKe)|apply (Hm MapNs)|apply (Hm MapBump)|apply (Hm Disp)|apply (Hm MapD)|apply (Hm Decal)]; exact E.
Qed.

Theorem readable_iff : forall ms, (exists input, parse input = Ok (mkMaterialSet ms)) <->
  Forall material_f64 ms /\ Forall (names_are is_token) ms.
Proof.
  intros ms. split.
  - intros (input & E). apply (parsed_tokens _ _ is_token E). intros ts t Ht Hin. now apply (tokens_are _ _ Ht).
  - intros [Hf Hn]. exists (text_of (concat (map material_tokens ms))).
    apply (written_materials _ ms (map material_tokens ms) 0); [now apply all_written|]. apply text_of_tokens. apply Forall_concat.
    apply Forall_map. eapply Forall_impl; [|exact Hn]. intros m Hm. apply material_tokens_are; auto.
    + intros w H1 H2. apply word_token. now apply plain_words.
    + left. exists LF. split; [now left|reflexivity].
Qed.

Theorem readable_str_iff : forall ms, (exists input, valid_utf8 input /\ parse input = Ok (mkMaterialSet ms)) <->
  Forall material_f64 ms /\ Forall (names_are (fun n => is_token n /\ valid_utf8 n)) ms.
Proof.
  intros ms. split.
  - intros (input & Hu & E). apply (parsed_tokens _ _ _ E). intros ts t Ht Hin. split; [now apply (tokens_are _ _ Ht)|].
    pose proof (tokenizes_utf8 _ _ Ht Hu) as K. rewrite Forall_forall in K. auto.
  - intros [Hf Hn].
    assert (K : Forall (fun n => is_token n /\ valid_utf8 n) (concat (map material_tokens ms))).
    { apply Forall_concat. apply Forall_map. eapply Forall_impl; [|exact Hn]. intros m Hm. apply material_tokens_are; auto.
      + intros w H1 H2. split; [apply word_token; now apply plain_words|now apply plain_utf8].
      + split; [left; exists LF; split; [now left|reflexivity]|]. apply (valid_char [LF] []); constructor. vm_compute. split; discriminate. }
    exists (text_of (concat (map material_tokens ms))). split.
    + apply text_of_utf8. eapply Forall_impl; [|exact K]. now intros n [_ H].
    + apply (written_materials _ ms (map material_tokens ms) 0); [now apply all_written|]. apply text_of_tokens.
      eapply Forall_impl; [|exact K]. now intros n [H _].
Qed.
