(** Proofs about MTL texts that write the same numbers in different ways. *)
From Verif Require Import ConsumeProofs ObjMore MtlModel MtlRespellSpec LexerProofs TotalProofs TextProofs MtlTop MtlFacts.
Local Open Scope list_scope.

Lemma respelled_refl : forall ts, respelled ts ts.
Proof.
  intros ts.
  assert (H : forall n l, length l <= n -> respelled l l).
  { induction n as [|n IH]; intros l Hl.
    - destruct l; [|cbn in Hl; lia]. apply respelled_last, line_same. intros [].
    - destruct (in_dec (list_eq_dec ascii_dec) nl l) as [K|K]; [|now apply respelled_last, line_same].
      assert (S : exists a b, l = a ++ nl :: b /\ ~ In nl a).
      { clear -K. induction l as [|t l IH]; [destruct K|]. destruct (list_eq_dec ascii_dec t nl) as [->|E].
        - exists [], l. split; [reflexivity|intros []].
        - destruct K as [K|K]; [now destruct E|]. destruct (IH K) as (a & b & -> & N). exists (t :: a), b.
          split; [reflexivity|]. intros [M|M]; [now destruct E|now apply N]. }
      destruct S as (a & b & -> & N). apply respelled_more; [now apply line_same|].
      apply IH. rewrite app_length in Hl. cbn in Hl. lia. }
  apply (H (length ts)). lia.
Qed.

Definition tails (b b' : list bytes) : Prop :=
  (b = [] /\ b' = []) \/ exists u u', b = nl :: u /\ b' = nl :: u' /\ respelled u u'.

Lemma tails_respelled : forall l b b', ~ In nl l -> tails b b' -> respelled (l ++ b) (l ++ b').
Proof.
  intros l b b' N [[-> ->]|(u & u' & -> & -> & H)]; [apply respelled_refl|].
  apply respelled_more; [|exact H]. now apply line_same.
Qed.

Lemma respelled_cases : forall ts ts', respelled ts ts' ->
  exists l l' b b', ts = l ++ b /\ ts' = l' ++ b' /\ respelled_line l l' /\ tails b b'.
Proof.
  intros ts ts' H. destruct H as [l l' H|l l' ts ts' H K].
  - exists l, l', [], []. rewrite !app_nil_r. repeat split; auto. now left.
  - exists l, l', (nl :: ts), (nl :: ts'). repeat split; auto. right. eauto.
Qed.

Lemma number_not_nl : forall A (read : bytes -> option A) t t', read nl = None -> same_number read t t' -> t <> nl /\ t' <> nl.
Proof. intros A read t t' H (x & K & K'). split; intros ->; congruence. Qed.

Lemma floats_no_nl : forall xs ys, Forall2 same_float xs ys -> ~ In nl xs /\ ~ In nl ys.
Proof.
  intros xs ys H. induction H as [|t t' xs ys H K [IH IH']]; [auto|]. apply number_not_nl in H; [|reflexivity].
  destruct H as [H H']. split; intros [E|E]; auto.
Qed.

Lemma color_not_nl : forall f, color_word f <> nl.
Proof. intros []; discriminate. Qed.
Lemma number_word_not_nl : forall f, number_word f <> nl.
Proof. intros []; discriminate. Qed.
Lemma map_not_nl : forall f w, map_word f w -> w <> nl.
Proof. intros f w []; discriminate. Qed.

Lemma respelled_line_no_nl : forall l l', respelled_line l l' -> ~ In nl l /\ ~ In nl l'.
Proof.
  assert (C : forall w xs, w <> nl -> ~ In nl xs -> ~ In nl (w :: xs)) by (intros w xs A B [E|E]; auto).
  intros l l' H. destruct H as [l H|f xs ys _ H|f t t' H|t t' H]; auto.
  - destruct (floats_no_nl _ _ H); split; apply C; auto using color_not_nl.
  - apply number_not_nl in H; [|reflexivity]. destruct H. split; apply C; auto using number_word_not_nl; intros [E|[]]; auto.
  - apply number_not_nl in H; [|reflexivity]. destruct H. split; apply C; try discriminate; intros [E|[]]; auto.
Qed.

Lemma count_nl_cons : forall r, count_nl (nl :: r) = S (count_nl r).
Proof. reflexivity. Qed.

Lemma respelled_count : forall ts ts', respelled ts ts' -> count_nl ts = count_nl ts'.
Proof.
  intros ts ts' H. induction H as [l l' H|l l' ts ts' H K IH].
  - destruct (respelled_line_no_nl _ _ H). now rewrite !count_nl_none.
  - destruct (respelled_line_no_nl _ _ H). rewrite !count_nl_app, !count_nl_cons, (count_nl_none l), (count_nl_none l') by auto. lia.
Qed.

Lemma rest_count : forall l l' b b', ~ In nl l -> ~ In nl l' -> tails b b' -> count_nl (l ++ b) = count_nl (l' ++ b').
Proof.
  intros l l' b b' N N' T. rewrite !count_nl_app, (count_nl_none l), (count_nl_none l') by auto. cbn.
  apply respelled_count. apply (tails_respelled []); auto.
Qed.

Lemma respelled_first : forall ts ts', respelled ts ts' ->
  (ts = [] /\ ts' = []) \/ exists t r r', ts = t :: r /\ ts' = t :: r'.
Proof.
  intros ts ts' H. apply respelled_cases in H. destruct H as (l & l' & b & b' & -> & -> & L & T).
  destruct L as [l N|f xs ys N F|f t t' F|t t' F]; cbn; eauto 6.
  destruct l as [|t l]; cbn; eauto 6. destruct T as [[-> ->]|(u & u' & -> & -> & _)]; eauto 6.
Qed.

Lemma respelled_nil : forall ts', respelled [] ts' -> ts' = [].
Proof. intros ts' H. apply respelled_first in H. destruct H as [[_ H]|(t & r & r' & H & _)]; [auto|discriminate]. Qed.

Lemma respelled_blank : forall ts ts', respelled (nl :: ts) ts' -> exists r, ts' = nl :: r /\ respelled ts r.
Proof.
  intros ts ts' H. apply respelled_cases in H. destruct H as (l & l' & b & b' & E & -> & L & T).
  destruct (respelled_line_no_nl _ _ L) as [N N']. destruct l as [|t l]; [|cbn in E; inversion E; subst; exfalso; apply N; now left].
  inversion L; subst. cbn in *. subst b. destruct T as [[T _]|(u & u' & T & -> & K)]; [discriminate|]. inversion T; subst. eauto.
Qed.

Lemma not_number_words : forall w, (forall f, w <> color_word f) -> (forall f, w <> number_word f) -> w <> lit "illum" -> w <> nl ->
  forall ts ts', respelled (w :: ts) ts' -> exists l b b', ts = l ++ b /\ ts' = w :: l ++ b' /\ ~ In nl l /\ tails b b'.
Proof.
  intros w K1 K2 K3 W ts ts' H. apply respelled_cases in H. destruct H as (l & l' & b & b' & E & -> & L & T).
  destruct L as [l N|f xs ys N F|f t t' F|t t' F]; cbn in E; try (inversion E; subst w; exfalso; first [eapply K1; reflexivity | eapply K2; reflexivity | apply K3; reflexivity]).
  destruct l as [|t l]; cbn in E.
  - subst b. exfalso. destruct T as [[T _]|(u & u' & T & _)]; inversion T; congruence.
  - inversion E; subst. exists l, b, b'. repeat split; auto. intros I. apply N. now right.
Qed.

(** A word and a name. *)
Lemma respelled_named : forall w name mid ts', (forall f, w <> color_word f) -> (forall f, w <> number_word f) -> w <> lit "illum" -> w <> nl ->
  respelled (w :: name :: mid) ts' -> exists mid', ts' = w :: name :: mid' /\ respelled mid mid'.
Proof.
  intros w name mid ts' K1 K2 K3 W H. apply not_number_words in H; auto. destruct H as (l & b & b' & E & -> & N & T).
  destruct l as [|x l]; cbn in E.
  - subst b. destruct T as [[T _]|(u & u' & T & -> & K)]; inversion T; subst. cbn. eauto.
  - inversion E; subst. exists (l ++ b'). split; auto. apply tails_respelled; auto. intros I. apply N. now right.
Qed.

Lemma float_is : forall t t', same_float t t' -> exists x, float_token t x /\ float_token t' x.
Proof. intros t t' (y & H & K). exists y. auto. Qed.

Lemma float_same : forall t t' x, same_float t t' -> float_token t x -> float_token t' x.
Proof. intros t t' x (y & H & K) F. unfold float_token in *. congruence. Qed.

Lemma float_not_nl : forall t x, float_token t x -> t <> nl.
Proof. intros t x H ->. discriminate H. Qed.

Lemma color_inj : forall f f', color_word f = color_word f' -> f = f'.
Proof. intros [] [] H; try discriminate; auto. Qed.
Lemma color_not_number : forall f f', color_word f <> number_word f'.
Proof. intros [] []; discriminate. Qed.
Lemma number_inj : forall f f', number_word f = number_word f' -> f = f'.
Proof. intros [] [] H; try discriminate; auto. Qed.
Lemma color_not_illum : forall f, color_word f <> lit "illum".
Proof. intros []; discriminate. Qed.
Lemma number_not_illum : forall f, number_word f <> lit "illum".
Proof. intros []; discriminate. Qed.
Lemma map_not_color : forall f w f', map_word f w -> w <> color_word f'.
Proof. intros f w f' [] ; destruct f'; discriminate. Qed.
Lemma map_not_number : forall f w f', map_word f w -> w <> number_word f'.
Proof. intros f w f' [] ; destruct f'; discriminate. Qed.
Lemma map_not_illum : forall f w, map_word f w -> w <> lit "illum".
Proof. intros f w []; discriminate. Qed.

(** Tokens without a newline at the beginning of a line that is the same. *)
Lemma same_split : forall line mid l b b', ~ In nl line -> ~ In nl l -> tails b b' -> line ++ mid = l ++ b ->
  exists l2, l = line ++ l2 /\ mid = l2 ++ b.
Proof.
  induction line as [|t line IH]; intros mid l b b' N N' T E; cbn in *; [eauto|].
  destruct l as [|x l]; cbn in E.
  - subst b. destruct T as [[T _]|(u & u' & T & _)]; inversion T; subst. exfalso. apply N. now left.
  - inversion E; subst. assert (~ In nl line) by (intros I; apply N; now right). assert (~ In nl l) by (intros I; apply N'; now right).
    destruct (IH mid l b b') as (l2 & -> & ->); auto. now exists l2.
Qed.

Lemma respelled_same : forall line mid ts', ~ In nl line -> forall l b b', ~ In nl l -> tails b b' -> line ++ mid = l ++ b -> ts' = l ++ b' ->
  exists mid', ts' = line ++ mid' /\ respelled mid mid'.
Proof.
  intros line mid ts' N l b b' N' T E ->. destruct (same_split _ _ _ _ _ N N' T E) as (l2 & -> & ->).
  exists (l2 ++ b'). rewrite <- app_assoc. split; auto. apply tails_respelled; auto. intros I. apply N'. apply in_or_app. now right.
Qed.

Lemma no_nl_cons : forall w (xs : list bytes), w <> nl -> ~ In nl xs -> ~ In nl (w :: xs).
Proof. intros w xs A B [E|E]; auto. Qed.

Lemma respelled_step : forall s line mid ts', says s line -> respelled (line ++ mid) ts' ->
  exists line' mid', ts' = line' ++ mid' /\ says s line' /\ respelled mid mid'.
Proof.
  intros s line mid ts' S H. destruct S as [f r g b x y z Fr Fg Fb|f t x F|t n i F I|f w name W].
  4: { apply respelled_named in H; [|eauto using map_not_color, map_not_number, map_not_illum, map_not_nl..].
       destruct H as (mid' & -> & H). exists [w; name], mid'. repeat split; auto. now apply says_map. }
  all: apply respelled_cases in H; destruct H as (l & l' & e & e' & E & -> & L & T).
  - destruct L as [l N|f' xs ys N F|f' t t' F|t t' F].
    + assert (M : ~ In nl [color_word f; r; g; b]).
      { repeat apply no_nl_cons; eauto using color_not_nl, float_not_nl. }
      destruct (respelled_same _ mid _ M l e e' N T E eq_refl) as (mid' & -> & R). exists [color_word f; r; g; b], mid'. split; auto. split; auto. now apply says_color.
    + destruct F as [|t1 t1' ? ? F1 F]; [discriminate|]. destruct F as [|t2 t2' ? ? F2 F]; [discriminate|].
      destruct F as [|t3 t3' ? ? F3 F]; [discriminate|]. destruct F; [|discriminate]. cbn in E. inversion E as [[E1 E2 E3 E4]]; subst.
      apply color_inj in E1. subst f'. exists [color_word f; t1'; t2'; t3'], e'. split; auto. split.
      * apply says_color; eapply float_same; eauto.
      * apply (tails_respelled []); auto.
    + cbn in E. inversion E as [[E1 E2]]. exfalso. eapply color_not_number; eauto.
    + cbn in E. inversion E as [[E1 E2]]. exfalso. eapply color_not_illum; eauto.
  - destruct L as [l N|f' xs ys N F'|f' u u' F'|u u' F'].
    + assert (M : ~ In nl [number_word f; t]).
      { repeat apply no_nl_cons; eauto using number_word_not_nl, float_not_nl. }
      destruct (respelled_same _ mid _ M l e e' N T E eq_refl) as (mid' & -> & R). exists [number_word f; t], mid'. split; auto. split; auto. now apply says_number.
    + cbn in E. inversion E as [[E1 E2]]. exfalso. eapply color_not_number; eauto.
    + cbn in E. inversion E as [[E1 E2 E3]]; subst. apply number_inj in E1. subst f'. exists [number_word f; u'], e'. split; auto. split.
      * apply says_number. eapply float_same; eauto.
      * apply (tails_respelled []); auto.
    + cbn in E. inversion E as [[E1 E2]]. exfalso. eapply number_not_illum; eauto.
  - destruct L as [l N|f' xs ys N F'|f' u u' F'|u u' F'].
    + assert (M : ~ In nl [lit "illum"; t]).
      { repeat apply no_nl_cons; auto; [discriminate|intros ->; discriminate F]. }
      destruct (respelled_same _ mid _ M l e e' N T E eq_refl) as (mid' & -> & R). exists [lit "illum"; t], mid'. split; auto. split; auto. eapply says_illum; eauto.
    + cbn in E. inversion E as [[E1 E2]]. exfalso. eapply color_not_illum; eauto.
    + cbn in E. inversion E as [[E1 E2]]. exfalso. eapply number_not_illum; eauto.
    + cbn in E. inversion E; subst. exists [lit "illum"; u'], e'. split; auto. split.
      * destruct F' as (k & K & K'). apply says_illum with n; auto. congruence.
      * apply (tails_respelled []); auto.
Qed.

Lemma respelled_settings : forall ss ts, says_settings ss ts -> forall mid ts', respelled (ts ++ mid) ts' ->
  exists pre mid', ts' = pre ++ mid' /\ says_settings ss pre /\ respelled mid mid'.
Proof.
  intros ss ts H. induction H as [|ss ts H IH|s line ss ts Hs H IH]; intros mid ts' R.
  - exists [], ts'. repeat split; auto. constructor.
  - cbn in R. apply respelled_blank in R. destruct R as (r & -> & R). destruct (IH _ _ R) as (pre & mid' & -> & S & R').
    exists (nl :: pre), mid'. repeat split; auto. now apply settings_blank.
  - rewrite <- app_assoc in R. destruct (respelled_step _ _ _ _ Hs R) as (line' & r & -> & S & R').
    destruct (IH _ _ R') as (pre & mid' & -> & S' & R''). exists (line' ++ pre), mid'. rewrite <- app_assoc. repeat split; auto.
    now apply settings_more.
Qed.

Lemma newmtl_named : forall name mid ts', respelled (lit "newmtl" :: name :: mid) ts' ->
  exists mid', ts' = lit "newmtl" :: name :: mid' /\ respelled mid mid'.
Proof.
  intros name mid ts'. apply respelled_named; [intros []; discriminate|intros []; discriminate|discriminate|discriminate].
Qed.

Lemma respelled_materials : forall f ts, says_materials f ts -> forall mid ts', respelled (ts ++ mid) ts' ->
  exists pre mid', ts' = pre ++ mid' /\ says_materials f pre /\ respelled mid mid'.
Proof.
  intros f ts H. induction H as [|name ss ts f ts2 Hs H IH]; intros mid ts' R.
  - exists [], ts'. repeat split; auto. constructor.
  - cbn in R. apply newmtl_named in R. destruct R as (r & -> & R). rewrite <- app_assoc in R.
    destruct (respelled_settings _ _ Hs _ _ R) as (pre & r' & -> & S & R'). destruct (IH _ _ R') as (pre' & mid' & -> & S' & R'').
    exists (lit "newmtl" :: name :: pre ++ pre'), mid'. cbn. rewrite <- app_assoc. repeat split; auto. now apply materials_more.
Qed.

Lemma respelled_blanks : forall n mid ts', respelled (repeat nl n ++ mid) ts' ->
  exists mid', ts' = repeat nl n ++ mid' /\ respelled mid mid'.
Proof.
  induction n as [|n IH]; intros mid ts' R; [now exists ts'|]. cbn in R. apply respelled_blank in R. destruct R as (r & -> & R).
  destruct (IH _ _ R) as (mid' & -> & R'). now exists mid'.
Qed.

Lemma respelled_file : forall f ts, says_file f ts -> forall mid ts', respelled (ts ++ mid) ts' ->
  exists pre mid', ts' = pre ++ mid' /\ says_file f pre /\ respelled mid mid'.
Proof.
  intros f ts (n & u & -> & H) mid ts' R. rewrite <- app_assoc in R. apply respelled_blanks in R. destruct R as (r & -> & R).
  destruct (respelled_materials _ _ H _ _ R) as (pre & mid' & -> & S & R'). exists (repeat nl n ++ pre), mid'.
  rewrite <- app_assoc. repeat split; auto. exists n, pre. auto.
Qed.

Lemma map_fails : forall f w ts' , map_word f w -> respelled [w] ts' -> ts' = [w].
Proof.
  intros f w ts' W H. apply not_number_words in H; eauto using map_not_color, map_not_number, map_not_illum, map_not_nl.
  destruct H as (l & b & b' & E & -> & N & T). destruct l; [|discriminate]. cbn in E. subst b.
  destruct T as [[_ ->]|(u & u' & T & _)]; [reflexivity|discriminate].
Qed.

Lemma not_float_same : forall ts c rest, not_float ts c rest -> forall l b b', ~ In nl l -> tails b b' -> ts = l ++ b ->
  exists rest', not_float (l ++ b') c rest' /\ count_nl rest = count_nl rest'.
Proof.
  intros ts c rest H l b b' N T E. destruct H as [|t rest H].
  - symmetry in E. apply app_eq_nil in E. destruct E as [-> ->]. destruct T as [[_ ->]|(u & u' & T & _)]; [|discriminate].
    exists []. split; [constructor|auto].
  - destruct l as [|x l]; cbn in E.
    + subst b. destruct T as [[T _]|(u & u' & T & -> & R)]; inversion T; subst. exists u'. split; [now constructor|now apply respelled_count].
    + inversion E; subst. exists (l ++ b'). split; [now constructor|].
      assert (~ In nl l) by (intros I; apply N; now right). now apply rest_count.
Qed.

Ltac is_number := exfalso; match goal with
  | K : not_float (?t :: _) _ _, F : same_float ?t _ |- _ =>
      inversion K; subst; destruct (float_is _ _ F) as (? & ? & _);
      match goal with Q : forall x, ~ float_token t x |- _ => eapply Q; eauto end
  end.

Lemma respelled_fails : forall ts c rest ts', fails_setting ts c rest -> respelled ts ts' ->
  exists c' rest', fails_setting ts' c' rest' /\ fst c = fst c' /\ count_nl rest = count_nl rest'.
Proof.
  intros ts c rest ts' H R.
  destruct H as [f ts c rest H|f r x ts c rest F H|f r x g y ts c rest F F' H|f ts c rest H| |t rest H|t n rest H I|f w W|t ts K K1 K2].
  8: { apply (map_fails _ _ _ W) in R. subst ts'. exists (EndOfFile, msg_map_end), []. split; [eapply fails_map; eauto|auto]. }
  8: { pose proof (respelled_count _ _ R) as C. apply respelled_first in R. destruct R as [[R _]|(t' & r & r' & R & ->)]; inversion R; subst.
       exists (ErrorParsingMaterial, msg_material t'), (t' :: r'). split; [now apply fails_unknown|auto]. }
  all: apply respelled_cases in R; destruct R as (l & l' & e & e' & E & -> & L & T).
  - destruct L as [l N|f' xs ys N F|f' u u' F|u u' F]; cbn in E.
    + destruct (same_split [color_word f] ts l e e') as (l2 & -> & ->); auto.
      { apply no_nl_cons; auto using color_not_nl. }
      destruct (not_float_same _ _ _ H l2 e e') as (rest' & K & C); auto. { intros I; apply N; now right. }
      exists c, rest'. split; [now apply fails_r|auto].
    + inversion E as [[E1 E2]]; subst. destruct F; [discriminate|]. cbn in H. is_number.
    + inversion E as [[E1 E2]]. exfalso. eapply color_not_number; eauto.
    + inversion E as [[E1 E2]]. exfalso. eapply color_not_illum; eauto.
  - destruct L as [l N|f' xs ys N F'|f' u u' F'|u u' F']; cbn in E.
    + destruct (same_split [color_word f; r] ts l e e') as (l2 & -> & ->); auto.
      { repeat apply no_nl_cons; eauto using color_not_nl, float_not_nl. }
      destruct (not_float_same _ _ _ H l2 e e') as (rest' & K & C); auto. { intros I; apply N; right; now right. }
      exists c, rest'. split; [eapply fails_g; eauto|auto].
    + destruct F'; [discriminate|]. destruct F'; [discriminate|]. cbn in E. inversion E as [[E1 E2 E3]]; subst. is_number.
    + inversion E as [[E1 E2]]. exfalso. eapply color_not_number; eauto.
    + inversion E as [[E1 E2]]. exfalso. eapply color_not_illum; eauto.
  - destruct L as [l N|f' xs ys N F2|f' u u' F2|u u' F2]; cbn in E.
    + destruct (same_split [color_word f; r; g] ts l e e') as (l2 & -> & ->); auto.
      { repeat apply no_nl_cons; eauto using color_not_nl, float_not_nl. }
      destruct (not_float_same _ _ _ H l2 e e') as (rest' & K & C); auto. { intros I; apply N; right; right; now right. }
      exists c, rest'. split; [eapply fails_b; eauto|auto].
    + destruct F2; [discriminate|]. destruct F2; [discriminate|]. destruct F2; [discriminate|]. cbn in E. inversion E as [[E1 E2 E3 E4]]; subst. is_number.
    + inversion E as [[E1 E2]]. exfalso. eapply color_not_number; eauto.
    + inversion E as [[E1 E2]]. exfalso. eapply color_not_illum; eauto.
  - destruct L as [l N|f' xs ys N F|f' u u' F|u u' F]; cbn in E.
    + destruct (same_split [number_word f] ts l e e') as (l2 & -> & ->); auto.
      { apply no_nl_cons; auto using number_word_not_nl. }
      destruct (not_float_same _ _ _ H l2 e e') as (rest' & K & C); auto. { intros I; apply N; now right. }
      exists c, rest'. split; [now apply fails_number|auto].
    + inversion E as [[E1 E2]]. exfalso. eapply color_not_number; eauto.
    + inversion E as [[E1 E2]]; subst. is_number.
    + inversion E as [[E1 E2]]. exfalso. eapply number_not_illum; eauto.
  - destruct L as [l N|f' xs ys N F|f' u u' F|u u' F]; cbn in E.
    + destruct (same_split [lit "illum"] [] l e e') as (l2 & -> & E2); auto.
      { apply no_nl_cons; auto; discriminate. }
      symmetry in E2. apply app_eq_nil in E2. destruct E2 as [-> ->]. destruct T as [[_ ->]|(u & u' & T & _)]; [|discriminate].
      exists (EndOfFile, msg_end), []. split; [apply fails_illum_end|auto].
    + inversion E as [[E1 E2]]. exfalso. eapply color_not_illum; eauto.
    + inversion E as [[E1 E2]]. 
    + inversion E.
  - destruct L as [l N|f' xs ys N F|f' u u' F|u u' F]; cbn in E.
    + destruct (same_split [lit "illum"] (t :: rest) l e e') as (l2 & -> & E2); auto.
      { apply no_nl_cons; auto; discriminate. }
      destruct l2 as [|x l2]; cbn in E2.
      * subst e. destruct T as [[T _]|(u & u' & T & -> & R)]; inversion T; subst.
        exists (ExpectedInteger, msg_integer nl), u'. split; [now apply fails_illum_integer|]. split; auto. now apply respelled_count.
      * inversion E2; subst. exists (ExpectedInteger, msg_integer x), (l2 ++ e'). split; [now apply fails_illum_integer|]. split; auto.
        assert (~ In nl l2) by (intros I; apply N; right; now right). now apply rest_count.
    + inversion E as [[E1 E2]]. exfalso. eapply color_not_illum; eauto.
    + inversion E as [[E1 E2]]. exfalso. eapply number_not_illum; eauto.
    + inversion E; subst. destruct F as (n & F & _). congruence.
  - destruct L as [l N|f' xs ys N F|f' u u' F|u u' F]; cbn in E.
    + destruct (same_split [lit "illum"; t] rest l e e') as (l2 & -> & ->); auto.
      { repeat apply no_nl_cons; auto; [discriminate|intros ->; discriminate H]. }
      exists (UnknownIlluminationModel, msg_illum n), (l2 ++ e'). split; [now apply fails_illum|]. split; auto.
      assert (~ In nl l2) by (intros I'; apply N; right; now right). now apply rest_count.
    + inversion E as [[E1 E2]]. exfalso. eapply color_not_illum; eauto.
    + inversion E as [[E1 E2]]. exfalso. eapply number_not_illum; eauto.
    + inversion E; subst. destruct F as (k & F & F'). exists (UnknownIlluminationModel, msg_illum n), e'.
      split; [apply fails_illum; auto; congruence|]. split; auto. apply respelled_count. apply (tails_respelled []); auto.
Qed.

Lemma respelled_fails_file : forall ts c rest ts', fails_file ts c rest -> respelled ts ts' ->
  exists c' rest', fails_file ts' c' rest' /\ fst c = fst c' /\ count_nl rest = count_nl rest'.
Proof.
  intros ts c rest ts' H R. destruct H as [n t rest H H'|f ts H|f ts name ss ts1 ts2 c rest H Hs Hf].
  - apply respelled_blanks in R. destruct R as (r & -> & R). pose proof (respelled_count _ _ R) as C.
    apply respelled_first in R. destruct R as [[R _]|(t' & q & q' & R & ->)]; inversion R; subst.
    exists (ExpectedEndOfInput, msg_not_end t'), (t' :: q'). split; [now apply fails_start|auto].
  - destruct (respelled_file _ _ H _ _ R) as (pre & mid' & -> & S & R'). apply respelled_cases in R'.
    destruct R' as (l & l' & b & b' & E & -> & L & T).
    assert (l' ++ b' = [lit "newmtl"]) as ->.
    { destruct L as [l N|f' xs ys N F|f' u u' F|u u' F]; cbn in E.
      - destruct l as [|x l]; cbn in E.
        + subst b. destruct T as [[T _]|(u & u' & T & _)]; discriminate.
        + inversion E as [[E1 E2]]. symmetry in E2. apply app_eq_nil in E2. destruct E2 as [-> ->].
          destruct T as [[_ ->]|(u & u' & T & _)]; [reflexivity|discriminate].
      - destruct f'; discriminate.
      - destruct f'; discriminate.
      - discriminate. }
    exists (EndOfFile, msg_name_end), []. split; [now apply fails_name with f|auto].
  - destruct (respelled_file _ _ H _ _ R) as (pre & mid' & -> & S & R'). apply newmtl_named in R'. destruct R' as (r & -> & R').
    destruct (respelled_settings _ _ Hs _ _ R') as (pre' & r' & -> & S' & R''). destruct (respelled_fails _ _ _ _ Hf R'') as (c' & rest' & K & E & C).
    exists c', rest'. split; auto. eapply fails_in; eauto.
Qed.

Lemma fails_file_suffix : forall ts c rest, fails_file ts c rest -> exists p, ts = p ++ rest.
Proof.
  intros ts c rest H.
  assert (Q : forall ts c rest, not_float ts c rest -> exists p, ts = p ++ rest).
  { intros ts0 c0 rest0 []; [now exists []|now exists [t]]. }
  assert (P : forall ts c rest, fails_setting ts c rest -> exists p, ts = p ++ rest).
  { intros ts0 c0 rest0 F. destruct F; try match goal with K : not_float _ _ _ |- _ => apply Q in K; destruct K as [p ->] end.
    - now exists (color_word f :: p).
    - now exists (color_word f :: r :: p).
    - now exists (color_word f :: r :: g :: p).
    - now exists (number_word f :: p).
    - now exists [lit "illum"].
    - now exists [lit "illum"; t].
    - now exists [lit "illum"; t].
    - now exists [w].
    - now exists []. }
  destruct H as [n t rest H H'|f ts H|f ts name ss ts1 ts2 c rest H Hs Hf].
  - now exists (repeat nl n).
  - exists (ts ++ [lit "newmtl"]). now rewrite app_nil_r.
  - apply P in Hf. destruct Hf as [p ->]. exists (ts ++ lit "newmtl" :: name :: ts1 ++ p). rewrite <- !app_assoc. cbn. now rewrite <- app_assoc.
Qed.

Lemma mtl_respelled : forall input input' ts ts', tokenizes input ts -> tokenizes input' ts' -> respelled ts ts' ->
  same_outcome (parse input) (parse input').
Proof.
  intros input input' ts ts' H H' R. assert (U : forall x y, tokenizes input x -> tokenizes input y -> x = y).
  { intros x y A B. apply tokenizes_iff in A, B. congruence. }
  destruct (mtl_terminates input (lex input) (S (length (lex input))) (lex_tokenizes _) ltac:(lia)) as [_ [(set & P)|(e & P)]]; rewrite P.
  - destruct (parsed_says _ _ P) as (f & (ts0 & Ht & Hs) & ->). rewrite (U _ _ Ht H) in Hs.
    destruct (respelled_file _ _ Hs [] ts') as (pre & mid & E & S & K); [now rewrite app_nil_r|].
    apply respelled_nil in K. subst mid. rewrite app_nil_r in E. subst pre.
    rewrite (parse_says input' f); [reflexivity|]. exists ts'. auto.
  - apply parse_err_iff in P. destruct P as (x & y & tx & ty & c & -> & Hx & Hy & Ht & Hc & ->).
    rewrite (U _ _ Ht H) in Hc. destruct (respelled_fails_file _ _ _ _ Hc R) as (c' & rest' & Hc' & K & N).
    destruct (fails_file_suffix _ _ _ Hc') as [p ->]. destruct (tokenizes_split _ _ H' _ _ eq_refl) as (x' & y' & -> & Hx' & Hy').
    assert (parse (x' ++ y') = Err (mkParseError (line_after x') (fst c') (snd c'))) as ->.
    { apply parse_err_iff; auto. exists x', y', p, rest', c'. repeat split; auto. }
    cbn. split; auto. unfold line_after. f_equal. rewrite <- (count_nl_line _ _ Hx), <- (count_nl_line _ _ Hx').
    apply respelled_count in R. rewrite <- (U _ _ Ht H), !count_nl_app in R. lia.
Qed.
