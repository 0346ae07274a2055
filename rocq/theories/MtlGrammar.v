(** What [mtl::parse] accepts of the grammar in GRAMMAR.md. *)
From Verif Require Import NumberProofs FloatProofs LexerProofs WordProofs ObjUnknown GrammarSpec GrammarProofs.
From Verif Require Import MtlModel MtlSpec MtlTop MtlWrite.
Local Open Scope char_scope.
Local Open Scope list_scope.

Lemma mtl_float : forall s, MtlFloat s -> Float s.
Proof. intros s (a & b & Ha & Hb & ->). exists a, b. split; auto. exists a. auto. Qed.

Lemma mtl_float_read : forall s, MtlFloat s -> exists x, float_token s x.
Proof. intros s H. apply float_read. now apply mtl_float. Qed.

Definition illum_ok (l : line) : Prop := forall n, l = [lit "illum"; n] -> exists k, digits n k /\ (k <= 2)%N.

Lemma property_read : forall l, MaterialProperty l -> ~ TransmissionFilter l -> illum_ok l -> exists s, says s l.
Proof.
  assert (C : forall f k l, color_word f = lit k -> Component k l -> exists s, says s l).
  { intros f k l E (r & g & b & Hr & Hg & Hb & ->). rewrite <- E.
    destruct (mtl_float_read _ Hr), (mtl_float_read _ Hg), (mtl_float_read _ Hb). eexists. apply says_color; eauto. }
  assert (N : forall f k l, number_word f = lit k -> Scalar k l -> exists s, says s l).
  { intros f k l E (x & Hx & ->). rewrite <- E. destruct (mtl_float_read _ Hx). eexists. apply says_number; eauto. }
  assert (M : forall f k l, map_word f (lit k) -> Map k l -> exists s, says s l).
  { intros f k l E (x & Hx & ->). eexists. apply says_map; eauto. }
  intros l H Ht Hi. unfold MaterialProperty in H.
  destruct H as [H|[H|[H|[H|[H|[H|[H|[H|[H|[H|[H|[H|[H|[H|[H|[H|[H|H]]]]]]]]]]]]]]]]].
  - apply (C Ka "Ka"%string); auto.
  - apply (C Kd "Kd"%string); auto.
  - apply (C Ks "Ks"%string); auto.
  - apply (C Ke "Ke"%string); auto.
  - contradiction.
  - apply (N D "d"%string); auto.
  - destruct H as (n & Hn & ->). destruct (Hi n eq_refl) as (k & Hk & Hk2).
    assert (U : RustStd.parse_usize n = Some k).
    { apply parse_usize_iff. split; [|lia]. exists n. split; [apply Hn|]. auto. }
    assert (I : exists i, illum_number k i).
    { destruct k as [|[p|[p|p|]|]]; try lia; eexists; constructor. }
    destruct I as [i I]. eexists. eapply says_illum; eauto.
  - apply (N Ns "Ns"%string); auto.
  - apply (N Ni "Ni"%string); auto.
  - apply (M MapKa "map_Ka"%string); auto. constructor.
  - apply (M MapKd "map_Kd"%string); auto. constructor.
  - apply (M MapKs "map_Ks"%string); auto. constructor.
  - apply (M MapKe "map_Ke"%string); auto. constructor.
  - apply (M MapBump "map_Bump"%string); auto. constructor.
  - apply (M MapBump "bump"%string); auto. constructor.
  - apply (M Disp "disp"%string); auto. constructor.
  - apply (M MapD "map_d"%string); auto. constructor.
  - apply (M Decal "decal"%string); auto. constructor.
Qed.

Lemma property_words : forall l, MaterialProperty l -> Forall word l.
Proof.
  assert (F : forall s, MtlFloat s -> word s) by (intros s H; apply float_word; now apply mtl_float).
  assert (C : forall k l, word (lit k) -> Component k l -> Forall word l).
  { intros k l W (r & g & b & Hr & Hg & Hb & ->). do 4 (apply Forall_cons; [auto|]). constructor. }
  assert (N : forall k l, word (lit k) -> Scalar k l -> Forall word l).
  { intros k l W (x & Hx & ->). do 2 (apply Forall_cons; [auto|]). constructor. }
  assert (M : forall k l, word (lit k) -> Map k l -> Forall word l).
  { intros k l W (x & Hx & ->). apply Forall_cons; [auto|]. apply Forall_cons; [now apply string_word|constructor]. }
  intros l H. unfold MaterialProperty in H.
  destruct H as [H|[H|[H|[H|[H|[H|[H|[H|[H|[H|[H|[H|[H|[H|[H|[H|[H|H]]]]]]]]]]]]]]]]];
    try (revert H; first [apply C|apply N|apply M]; tag).
  destruct H as (n & Hn & ->). apply Forall_cons; [tag|]. apply Forall_cons; [now apply digits_word|constructor].
Qed.

Lemma star_single : forall P ls, star (single P) ls -> Forall P ls.
Proof. intros P ls. apply star_forall. intros a. now apply single_forall. Qed.

Lemma properties_read : forall ls, Forall MaterialProperty ls -> Forall (fun l => ~ TransmissionFilter l) ls -> Forall illum_ok ls ->
  exists ss, says_settings ss (line_tokens ls).
Proof.
  intros ls H Ht Hi. induction H as [|l ls Hl H IH]; [exists []; constructor|]. inversion Ht; subst. inversion Hi; subst.
  destruct (property_read l) as [s Hs]; auto. destruct IH as [ss Hss]; auto.
  exists (s :: ss). unfold line_tokens. cbn [flat_map]. rewrite <- app_assoc. apply settings_more; auto. now apply settings_blank.
Qed.

Lemma mtl_set_read : forall ls, MtlSet ls -> Forall (fun l => ~ TransmissionFilter l) ls -> Forall illum_ok ls ->
  exists f, says_materials f (line_tokens ls).
Proof.
  intros ls H. induction H as [|a b Ha H IH]; intros Ht Hi; [exists []; constructor|].
  apply Forall_app in Ht as [Ht1 Ht2]. apply Forall_app in Hi as [Hi1 Hi2]. destruct (IH Ht2 Hi2) as [f Hf].
  destruct Ha as (x & y & (l & (n & Hn & ->) & ->) & Hy & ->). apply star_single in Hy.
  apply Forall_app in Ht1 as [_ Ht1]. apply Forall_app in Hi1 as [_ Hi1].
  destruct (properties_read y) as [ss Hss]; auto. exists ((n, ss) :: f).
  cbn [app]. change (line_tokens ([lit "newmtl"; n] :: y ++ b)) with (lit "newmtl" :: n :: nl :: line_tokens (y ++ b)).
  assert (E : line_tokens (y ++ b) = line_tokens y ++ line_tokens b) by apply flat_map_app. rewrite E.
  apply (materials_more n ss (nl :: line_tokens y) f (line_tokens b)); auto. now constructor.
Qed.

Lemma mtl_set_words : forall ls, MtlSet ls -> Forall (Forall word) ls.
Proof.
  intros ls. apply star_forall. intros a (x & y & (l & (n & Hn & ->) & ->) & Hy & ->). constructor.
  - apply Forall_cons; [tag|]. apply Forall_cons; [now apply string_word|constructor].
  - eapply Forall_impl; [|apply star_single; exact Hy]. apply property_words.
Qed.

Theorem mtl_grammar_read : forall ls, MtlSet ls -> Forall (fun l => ~ TransmissionFilter l) ls ->
  (forall n, In [lit "illum"; n] ls -> exists k, digits n k /\ (k <= 2)%N) ->
  exists f, says_file f (line_tokens ls) /\ parse (written ls) = Ok (file_means f).
Proof.
  intros ls H Ht Hi. destruct (mtl_set_read ls H Ht) as [f Hf].
  { apply Forall_forall. intros l Hl n ->. auto. }
  exists f. assert (S : says_file f (line_tokens ls)) by (exists 0, (line_tokens ls); auto). split; auto.
  apply parse_ok_iff. exists (line_tokens ls), f. split; auto. apply unlines_unwords. now apply mtl_set_words.
Qed.

(** * Unknown words *)

Definition mtl_unknown (w : bytes) : Prop := ~ keyword w /\ w <> nl /\ w <> lit "newmtl".

Section Unknown.
Context (w : bytes) (Hw : mtl_unknown w).

Lemma keyword_not_nl : forall k, keyword k -> k <> nl.
Proof.
  intros k [[f ->]|[[f ->]|[->|[f H]]]]; [destruct f; discriminate|destruct f; discriminate|discriminate|destruct H; discriminate].
Qed.

Lemma mtl_float_not_nl : forall t x, float_token t x -> t <> nl.
Proof. intros t x H ->. unfold float_token in H. vm_compute in H. discriminate. Qed.

Lemma says_used : forall s line, says s line -> exists k used, line = k :: used /\ keyword k /\ within_line (k :: used).
Proof.
  intros s line H. assert (F := mtl_float_not_nl).
  destruct H as [f r g b x y z Hr Hg Hb|f t x Ht|t n i Hu Hi|f k n Hk].
  - assert (K : keyword (color_word f)) by (left; eauto). do 2 eexists. split; [reflexivity|]. split; auto.
    apply within_cons; [now apply keyword_not_nl|]. do 2 (apply within_cons; [eauto|]). apply within_one.
  - assert (K : keyword (number_word f)) by (right; left; eauto). do 2 eexists. split; [reflexivity|]. split; auto.
    apply within_cons; [now apply keyword_not_nl|]. apply within_one.
  - assert (K : keyword (lit "illum")) by (right; right; left; auto). do 2 eexists. split; [reflexivity|]. split; auto.
    apply within_cons; [now apply keyword_not_nl|]. apply within_one.
  - assert (K : keyword k) by (right; right; right; eauto). do 2 eexists. split; [reflexivity|]. split; auto.
    apply within_cons; [now apply keyword_not_nl|]. apply within_one.
Qed.

Lemma mtl_blank : forall ts, has_unknown w (nl :: ts) -> has_unknown w ts.
Proof. intros ts. apply (unknown_behind w nl []); [|apply within_one]. intros E. symmetry in E. revert E. apply Hw. Qed.

Lemma settings_unknown : forall ss ts, says_settings ss ts -> forall rest, has_unknown w (ts ++ rest) -> has_unknown w rest.
Proof.
  intros ss ts H. induction H as [|ss ts H IH|s line ss ts Hs H IH]; intros rest K; auto.
  - apply IH. now apply mtl_blank.
  - apply IH. destruct (says_used _ _ Hs) as (k & used & -> & Hk & Hu). rewrite <- app_assoc in K.
    revert K. apply unknown_behind; auto. intros E. rewrite E in Hk. exact (proj1 Hw Hk).
Qed.

Lemma materials_unknown : forall f ts, says_materials f ts -> ~ has_unknown w ts.
Proof.
  intros f ts H. induction H as [|name ss ts f ts' Hs H IH]; intros K; [destruct K as (a & b & E & _); destruct a; discriminate|].
  apply IH. eapply settings_unknown; [exact Hs|]. apply (unknown_behind w (lit "newmtl") [name]); auto.
  - intros E. symmetry in E. revert E. apply Hw.
  - apply within_cons; [discriminate|apply within_one].
Qed.

Lemma mtl_file_unknown : forall f ts, says_file f ts -> ~ has_unknown w ts.
Proof.
  intros f ts (n & ts' & -> & H) K. apply (materials_unknown _ _ H). clear H. induction n as [|n IH]; auto. apply IH. now apply mtl_blank.
Qed.
End Unknown.

Theorem mtl_unknown_rejected : forall input a w b set, tokenizes input (a ++ w :: b) -> line_start a ->
  mtl_unknown w -> parse input <> Ok set.
Proof.
  intros input a w b set Ht Ha Hw Hok. apply parse_ok_iff in Hok as (ts & f & Ht' & Hs & _).
  assert (ts = a ++ w :: b) by (apply tokenizes_iff in Ht, Ht'; congruence). subst ts.
  apply (mtl_file_unknown w Hw _ _ Hs). exists a, b. auto.
Qed.

Theorem transmission_rejected : forall ls l set, MtlSet ls -> In l ls -> TransmissionFilter l -> parse (written ls) <> Ok set.
Proof.
  intros ls l set H Hi (r & g & b & Hr & Hg & Hb & ->). destruct (lines_split _ _ Hi) as (x & y & E & Hx).
  assert (T := words_tokens _ (mtl_set_words _ H)). rewrite E in T. cbn [app] in T.
  eapply (mtl_unknown_rejected _ x (lit "Tf")); eauto. split; [|split; discriminate].
  intros [[f K]|[[f K]|[K|[f K]]]]; [destruct f; discriminate|destruct f; discriminate|discriminate|inversion K].
Qed.
