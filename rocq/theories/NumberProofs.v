(** The functions of RustStd.v read the texts of NumberSpec.v. *)
From Verif Require Import RustStd NumberSpec.
Local Open Scope char_scope.
Local Open Scope list_scope.

(** * Digits *)

Lemma digit_val_digit : forall c d, digit_val c = Some d <-> digit c d.
Proof.
  intros c d. split.
  - intros H. destruct c as [b0 b1 b2 b3 b4 b5 b6 b7].
    destruct b0, b1, b2, b3, b4, b5, b6, b7; try discriminate H; injection H as <-; constructor.
  - intros H. destruct H; reflexivity.
Qed.

Lemma digit_val_none : forall c, digit_val c = None <-> forall d, ~ digit c d.
Proof.
  intros c. split.
  - intros H d Hd. apply digit_val_digit in Hd. congruence.
  - intros H. destruct (digit_val c) as [d|] eqn:E; auto. exfalso. eapply H. apply digit_val_digit. exact E.
Qed.

Lemma digits_val_app : forall a b acc,
  digits_val acc (a ++ b) = match digits_val acc a with Some n => digits_val n b | None => None end.
Proof. induction a as [|c a IH]; intros b acc; cbn [digits_val app]; auto. destruct (digit_val c); auto. Qed.

Lemma digits_val_digits : forall s n, digits_val 0 s = Some n <-> digits s n.
Proof.
  intros s. induction s as [|c s IH] using rev_ind; intros n.
  - cbn. split; intros H; [injection H as <-; constructor|]. inversion H as [|? ? ? ? ? ? E]; auto. destruct s; discriminate.
  - rewrite digits_val_app. split.
    + destruct (digits_val 0 s) as [m|]; [|discriminate]. cbn [digits_val].
      destruct (digit_val c) as [d|] eqn:E; [|discriminate]. intros H. injection H as <-.
      constructor; [now apply IH|now apply digit_val_digit].
    + intros H. inversion H as [E|s' m c' d H1 H2 E]; [destruct s; discriminate|].
      apply app_inj_tail in E. destruct E as [-> ->]. apply IH in H1. rewrite H1. cbn [digits_val].
      apply digit_val_digit in H2. now rewrite H2.
Qed.

Lemma digits_one : forall s n n', digits s n -> digits s n' -> n = n'.
Proof. intros s n n' H H'. apply digits_val_digits in H, H'. congruence. Qed.

(** * Integers *)

Lemma plus_not_digit : forall s n, digits ("+" :: s) n -> False.
Proof. intros s n H. apply digits_val_digits in H. discriminate H. Qed.
Lemma minus_not_digit : forall s n, digits ("-" :: s) n -> False.
Proof. intros s n H. apply digits_val_digits in H. discriminate H. Qed.

Lemma parse_usize_iff : forall s n, parse_usize s = Some n <-> usize_text s n.
Proof.
  intros s n. unfold usize_text, unsigned_text.
  assert (K : forall ds, match ds with [] => None | _ => match digits_val 0 ds with
                         | Some n => if (n <=? usize_max)%N then Some n else None | None => None end end = Some n <->
                   ds <> [] /\ digits ds n /\ (n < 2 ^ 64)%N).
  { intros ds. rewrite <- digits_val_digits. split.
    - destruct ds as [|c ds]; [discriminate|]. destruct (digits_val 0 (c :: ds)) as [m|]; [|discriminate].
      destruct (N.leb_spec m usize_max) as [Hle|]; [|discriminate]. intros E. injection E as <-.
      split; [discriminate|]. split; auto. unfold usize_max in Hle. lia.
    - intros (H & E & Hlt). destruct ds as [|c ds]; [congruence|]. rewrite E.
      destruct (N.leb_spec n usize_max) as [Hle|Hle]; auto. unfold usize_max in Hle. lia. }
  unfold parse_usize. destruct s as [|c s].
  - split; [discriminate|]. intros [(ds & Hne & Hd & [<-|E]) _]; [congruence|discriminate].
  - destruct (Ascii.eqb_spec c "+") as [->|Hc].
    + rewrite K. split.
      * intros (H1 & H2 & H3). split; auto. exists s. auto.
      * intros [(ds & Hne & Hd & [<-|E]) Hlt]; [exfalso; eapply plus_not_digit; eauto|]. injection E as ->. auto.
    + rewrite (K (c :: s)). split.
      * intros (H1 & H2 & H3). split; auto. exists (c :: s). auto.
      * intros [(ds & Hne & Hd & [<-|E]) Hlt]; auto. injection E as C _. congruence.
Qed.

Lemma in_isize_iff : forall z, in_isize z = true <-> (- 2 ^ 63 <= z < 2 ^ 63)%Z.
Proof. intros z. unfold in_isize, isize_min, isize_max. rewrite andb_true_iff, !Z.leb_le. lia. Qed.

Lemma parse_isize_iff : forall s z, parse_isize s = Some z <-> isize_text s z.
Proof.
  intros s z. unfold isize_text, unsigned_text, negative_text.
  assert (K : forall (neg : bool) ds, match ds with [] => None | _ => match digits_val 0 ds with
                         | Some n => let z := if neg then (- Z.of_N n)%Z else Z.of_N n in
                             if in_isize z then Some z else None | None => None end end = Some z <->
                   ds <> [] /\ (- 2 ^ 63 <= z < 2 ^ 63)%Z /\ exists n, digits ds n /\ z = if neg then (- Z.of_N n)%Z else Z.of_N n).
  { intros neg ds. split.
    - destruct ds as [|c ds]; [discriminate|]. destruct (digits_val 0 (c :: ds)) as [m|] eqn:E; [|discriminate]. cbv zeta.
      destruct (in_isize _) eqn:Hi; [|discriminate]. intros E'. injection E' as <-.
      split; [discriminate|]. split; [now apply in_isize_iff|]. exists m. split; auto. now apply digits_val_digits.
    - intros (H & Hr & n & Hn & E). destruct ds as [|c ds]; [congruence|].
      apply digits_val_digits in Hn. rewrite Hn. cbv zeta. rewrite <- E. apply in_isize_iff in Hr. now rewrite Hr. }
  unfold parse_isize. destruct s as [|c s].
  - split; [discriminate|]. intros (_ & n & [((ds & Hne & _ & [C|C]) & _)|((ds & _ & _ & C) & _)]); congruence.
  - destruct (Ascii.eqb_spec c "+") as [->|Hc].
    + rewrite (K false). split.
      * intros (H1 & H2 & n & H3 & ->). split; auto. exists n. left. split; auto. exists s. auto.
      * intros (Hr & n & [((ds & Hne & Hd & [C|C]) & ->)|((ds & _ & _ & C) & _)]).
        -- subst ds. exfalso. eapply plus_not_digit; eauto.
        -- injection C as ->. eauto 10.
        -- discriminate.
    + destruct (Ascii.eqb_spec c "-") as [->|Hc'].
      * rewrite (K true). split.
        -- intros (H1 & H2 & n & H3 & ->). split; auto. exists n. right. split; auto. exists s. auto.
        -- intros (Hr & n & [((ds & Hne & Hd & [C|C]) & ->)|((ds & Hne & Hd & C) & ->)]).
           ++ subst ds. exfalso. eapply minus_not_digit; eauto.
           ++ discriminate.
           ++ injection C as ->. eauto 10.
      * rewrite (K false (c :: s)). split.
        -- intros (H1 & H2 & n & H3 & ->). split; auto. exists n. left. split; auto. exists (c :: s). auto.
        -- intros (Hr & n & [((ds & Hne & Hd & [C|C]) & ->)|((ds & Hne & Hd & C) & ->)]).
           ++ subst ds. eauto 10.
           ++ injection C as C _. congruence.
           ++ injection C as C _. congruence.
Qed.

(** * The floating point grammar *)

Definition all_digits (s : bytes) : Prop := exists n, digits s n.

Lemma all_digits_forall : forall s, all_digits s <-> Forall (fun c => digit_val c <> None) s.
Proof.
  intros s. unfold all_digits. split.
  - intros (n & H). induction H as [|s n c d H IH Hd]; [constructor|]. apply Forall_app. split; auto. constructor; auto.
    apply digit_val_digit in Hd. congruence.
  - induction s as [|c s IH] using rev_ind; intros H; [exists 0%N; constructor|].
    apply Forall_app in H. destruct H as [H1 H2]. destruct (IH H1) as (n & Hn).
    inversion H2; subst. destruct (digit_val c) as [d|] eqn:E; [|congruence].
    exists (10 * n + d)%N. constructor; auto. now apply digit_val_digit.
Qed.

Lemma all_digits_app : forall a b, all_digits (a ++ b) <-> all_digits a /\ all_digits b.
Proof. intros. rewrite !all_digits_forall. apply Forall_app. Qed.

Lemma digits_N_digits : forall s n, digits s n -> digits_N s = n.
Proof. intros s n H. unfold digits_N. apply digits_val_digits in H. now rewrite H. Qed.

Definition no_digit_first (s : bytes) : Prop := match s with c :: _ => digit_val c = None | [] => True end.

Lemma span_app : forall a b, all_digits a -> no_digit_first b -> span_digits (a ++ b) = (a, b).
Proof.
  intros a b Ha Hb. apply all_digits_forall in Ha. induction Ha as [|c a Hc Ha IH]; cbn [app].
  - destruct b as [|c b]; auto. cbn in *. now rewrite Hb.
  - cbn [span_digits]. rewrite IH. destruct (digit_val c); [reflexivity|congruence].
Qed.

Lemma span_inv : forall s a b, span_digits s = (a, b) -> s = a ++ b /\ all_digits a /\ no_digit_first b.
Proof.
  intros s. induction s as [|c s IH]; intros a b H; cbn [span_digits] in H.
  - injection H as <- <-. repeat split. exists 0%N. constructor.
  - destruct (digit_val c) as [d|] eqn:E.
    + destruct (span_digits s) as [a' b'] eqn:Es. injection H as <- <-. destruct (IH _ _ eq_refl) as (-> & H2 & H3).
      split; auto. split; auto. apply all_digits_forall. apply all_digits_forall in H2. constructor; [congruence|assumption].
    + injection H as <- <-. split; auto. split; [exists 0%N; constructor|]. exact E.
Qed.

(** The exponent that is read instead of [e]. *)
Definition saturated (e e' : Z) : Prop :=
  e' = e \/ (65536 <= e' <= e)%Z \/ (e <= e' <= -65536)%Z.

Lemma exp_val_app : forall a c acc d, all_digits a -> digit_val c = Some d ->
  exp_val acc (a ++ [c]) = let acc' := exp_val acc a in if (acc' <? 65536)%Z then (10 * acc' + Z.of_N d)%Z else acc'.
Proof.
  intros a c acc d Ha Hd. apply all_digits_forall in Ha. revert acc.
  induction Ha as [|c' a Hc Ha IH]; intros acc; cbn [app exp_val].
  - rewrite Hd. reflexivity.
  - destruct (digit_val c'); [|congruence]. apply IH.
Qed.

Lemma exp_val_range : forall s n, digits s n ->
  exp_val 0 s = Z.of_N n \/ (65536 <= exp_val 0 s <= Z.of_N n)%Z.
Proof.
  intros s n H. induction H as [|s n c d H IH Hd]; [left; reflexivity|].
  assert (Ha : all_digits s) by (exists n; auto).
  pose proof Hd as Hd'. apply digit_val_digit in Hd'. rewrite (exp_val_app _ _ _ _ Ha Hd'). cbv zeta.
  destruct (Z.ltb_spec (exp_val 0 s) 65536) as [Hlt|Hge].
  - left. destruct IH as [->|IH]; lia.
  - right. destruct IH as [E|IH]; lia.
Qed.

Lemma lower_e : forall c, Ascii.eqb (ascii_lower c) "e" = true <-> c = "e" \/ c = "E".
Proof.
  intros c. split.
  - destruct c as [[] [] [] [] [] [] [] []]; cbn; intros H; try discriminate H; auto.
  - intros [->| ->]; reflexivity.
Qed.

Lemma sign_not_digit : forall c s n, digits (c :: s) n -> c <> "-" /\ c <> "+" /\ c <> ".".
Proof. intros c s n H. apply digits_val_digits in H. cbn in H. repeat split; intros ->; discriminate H. Qed.

Lemma parse_exponent_text : forall s e, exponent_text s e -> exists e', parse_exponent s = Some e' /\ saturated e e'.
Proof.
  intros s e H. destruct H as [|c sg neg ds n Hc Hs Hne Hd].
  - exists 0%Z. split; [reflexivity|now left].
  - assert (Ha : all_digits ds) by (exists n; auto).
    exists (if neg then - exp_val 0 ds else exp_val 0 ds)%Z.
    assert (Hsp : span_digits ds = (ds, [])) by (rewrite <- (app_nil_r ds) at 1; apply span_app; cbn; auto).
    split.
    + unfold parse_exponent. apply lower_e in Hc. rewrite Hc.
      destruct Hs; cbn [app].
      * destruct ds as [|d ds]; [congruence|]. destruct (sign_not_digit _ _ _ Hd) as (H1 & H2 & _).
        apply Ascii.eqb_neq in H1, H2. rewrite H1, H2, Hsp. reflexivity.
      * cbn. rewrite Hsp. destruct ds; congruence.
      * cbn. rewrite Hsp. destruct ds; congruence.
    + pose proof (exp_val_range _ _ Hd) as Hr. unfold saturated. destruct neg; lia.
Qed.

Lemma parse_exponent_inv : forall s e', parse_exponent s = Some e' -> exists e, exponent_text s e.
Proof.
  intros s e' H. destruct s as [|c s]; [eexists; constructor|]. cbn [parse_exponent] in H.
  destruct (Ascii.eqb (ascii_lower c) "e") eqn:Ec; [|discriminate]. apply lower_e in Ec.
  assert (K : forall neg ds sg, sign_text sg neg -> match span_digits ds with
                | (_ :: _, []) => Some (if neg : bool then (- exp_val 0 ds)%Z else exp_val 0 ds) | _ => None end = Some e' ->
              exists e, exponent_text (c :: sg ++ ds) e).
  { intros neg ds sg Hs E. destruct (span_digits ds) as [a b] eqn:Es. apply span_inv in Es. destruct Es as (-> & (n & Hn) & _).
    destruct a as [|x a]; [discriminate|]. destruct b; [|discriminate]. rewrite app_nil_r.
    eexists. econstructor; eauto. discriminate. }
  destruct s as [|c' s]; [discriminate|].
  destruct (Ascii.eqb_spec c' "-") as [->|H1]; [apply (K true s ["-"]); [constructor|exact H]|].
  destruct (Ascii.eqb_spec c' "+") as [->|H2]; [apply (K false s ["+"]); [constructor|exact H]|].
  apply (K false (c' :: s) []); [constructor|exact H].
Qed.

Lemma exponent_first : forall s e, exponent_text s e ->
  no_digit_first s /\ (forall r, s <> "." :: r).
Proof. intros s e H. destruct H as [|c s neg ds n [->| ->] _ _ _]; cbn; repeat split; auto; discriminate. Qed.

Lemma parse_decimal_text : forall mt m k ex e, mantissa_text mt m k -> exponent_text ex e ->
  exists e', saturated e e' /\ parse_decimal (mt ++ ex) = Some (m, (e' - Z.of_nat k)%Z).
Proof.
  intros mt m k ex e Hm He. destruct (parse_exponent_text _ _ He) as (e' & Ee & Hs).
  destruct (exponent_first _ _ He) as [Hf Hp]. exists e'. split; auto. unfold parse_decimal.
  destruct Hm as [ds m Hne Hd|a b m Hne Hd].
  - rewrite (span_app ds ex); auto; [|now exists m].
    assert (match ex with c :: r => if Ascii.eqb c "." then span_digits r else ([], ex) | [] => ([], []) end = ([], ex)) as ->.
    { destruct ex as [|c ex]; auto. destruct (Ascii.eqb_spec c ".") as [->|]; auto. now destruct (Hp ex). }
    rewrite app_nil_r, Ee. destruct ds as [|c ds]; [congruence|]. rewrite (digits_N_digits _ _ Hd). reflexivity.
  - assert (Hab : all_digits (a ++ b)) by (now exists m). apply all_digits_app in Hab. destruct Hab as [Ha Hb].
    rewrite <- app_assoc. cbn [app]. rewrite (span_app a ("." :: b ++ ex)); auto; [|reflexivity].
    cbn [Ascii.eqb]. cbn. rewrite (span_app b ex); auto. rewrite Ee.
    destruct (a ++ b) as [|x ab]; [congruence|]. now rewrite (digits_N_digits _ _ Hd).
Qed.

Lemma parse_decimal_inv : forall s m e0, parse_decimal s = Some (m, e0) ->
  exists mt k ex e, s = mt ++ ex /\ mantissa_text mt m k /\ exponent_text ex e.
Proof.
  intros s m e0 H. unfold parse_decimal in H.
  destruct (span_digits s) as [a rest] eqn:Es. apply span_inv in Es. destruct Es as (-> & Ha & Hf).
  destruct rest as [|c r].
  - cbn in H. rewrite app_nil_r in *. destruct Ha as [n Hn].
    destruct a as [|x a]; [discriminate|]. rewrite (digits_N_digits _ _ Hn) in H. injection H as <- <-.
    exists (x :: a), 0, [], 0%Z. rewrite app_nil_r. split; auto. split; [constructor; [discriminate|auto]|constructor].
  - destruct (Ascii.eqb_spec c ".") as [->|Hc].
    + destruct (span_digits r) as [b rest] eqn:Er. apply span_inv in Er. destruct Er as (-> & Hb & Hf').
      assert (Hab : all_digits (a ++ b)) by (now apply all_digits_app). destruct Hab as [n Hn].
      destruct (a ++ b) as [|x ab] eqn:Eab; [discriminate|]. rewrite (digits_N_digits _ _ Hn) in H. destruct (parse_exponent rest) as [e'|] eqn:Ee; [|discriminate].
      injection H as <- _. destruct (parse_exponent_inv _ _ Ee) as [e He].
      exists (a ++ "." :: b), (List.length b), rest, e. split; [now rewrite <- app_assoc|]. split; auto.
      constructor; rewrite Eab; auto. discriminate.
    + rewrite app_nil_r in H. destruct Ha as [n Hn].
      destruct a as [|x a]; [discriminate|]. rewrite (digits_N_digits _ _ Hn) in H. destruct (parse_exponent (c :: r)) as [e'|] eqn:Ee; [|discriminate].
      injection H as <- _. destruct (parse_exponent_inv _ _ Ee) as [e He].
      exists (x :: a), 0, (c :: r), e. split; auto. split; auto. constructor; auto. discriminate.
Qed.

Lemma mantissa_first : forall mt m k, mantissa_text mt m k -> exists c r, mt = c :: r /\ c <> "-" /\ c <> "+".
Proof.
  intros mt m k H. destruct H as [ds m Hne Hd|a b m Hne Hd].
  - destruct ds as [|c ds]; [congruence|]. destruct (sign_not_digit _ _ _ Hd) as (H1 & H2 & _). eauto 6.
  - destruct a as [|c a].
    + exists ".", b. repeat split; discriminate.
    + cbn in Hd. destruct (sign_not_digit _ _ _ Hd) as (H1 & H2 & _). cbn. eauto 6.
Qed.

(** The sign in front. *)
Definition split_sign (s : bytes) : bool * bytes :=
  match s with
  | c :: r => if Ascii.eqb c "-" then (true, r) else if Ascii.eqb c "+" then (false, r) else (false, s)
  | [] => (false, [])
  end.

Lemma split_sign_inv : forall s neg body, split_sign s = (neg, body) -> exists sg, s = sg ++ body /\ sign_text sg neg.
Proof.
  intros [|c s] neg body H; cbn in H.
  - injection H as <- <-. exists []. split; auto. constructor.
  - destruct (Ascii.eqb_spec c "-") as [->|]; [injection H as <- <-; exists ["-"]; split; auto; constructor|].
    destruct (Ascii.eqb_spec c "+") as [->|]; injection H as <- <-; [exists ["+"]|exists []]; split; auto; constructor.
Qed.

Lemma split_sign_app : forall sg neg body, sign_text sg neg -> (forall c r, body = c :: r -> c <> "-" /\ c <> "+") ->
  split_sign (sg ++ body) = (neg, body).
Proof.
  intros sg neg body H Hb. destruct H; cbn [app]; auto.
  destruct body as [|c r]; auto. destruct (Hb c r eq_refl) as [H1 H2]. apply Ascii.eqb_neq in H1, H2. cbn. now rewrite H1, H2.
Qed.

Definition parse_body (neg : bool) (body : bytes) : option f64 :=
  match parse_decimal body with
  | Some (m, e) => Some (decimal_to_f64 neg m e)
  | None =>
      let low := map ascii_lower body in
      if bytes_eqb low (lit "inf") || bytes_eqb low (lit "infinity") then Some (SpecFloat.S754_infinity neg)
      else if bytes_eqb low (lit "nan") then Some SpecFloat.S754_nan
      else None
  end.

Lemma parse_f64_body : forall s, parse_f64 s = let '(neg, body) := split_sign s in parse_body neg body.
Proof. reflexivity. Qed.

Ltac by_letter i := intros a; split;
  [destruct a as [[] [] [] [] [] [] [] []]; intros H; try discriminate H;
   first [left; reflexivity|right; exists i; split; [reflexivity|left; split; reflexivity]]
  |intros [->|(j & Hj & [[-> E]|[-> E]])]; [reflexivity| |];
   (assert (Hn : In j (map N.of_nat (seq 0 26)));
    [apply in_map_iff; exists (N.to_nat j); split; [lia|]; apply in_seq; lia|]);
   cbn in Hn; repeat (destruct Hn as [<-|Hn]; [try discriminate E; reflexivity|]); destruct Hn].

Lemma lower_a : forall a, ascii_lower a = "a" <-> same_letter a "a".
Proof. by_letter 0%N. Qed.
Lemma lower_f : forall a, ascii_lower a = "f" <-> same_letter a "f".
Proof. by_letter 5%N. Qed.
Lemma lower_i : forall a, ascii_lower a = "i" <-> same_letter a "i".
Proof. by_letter 8%N. Qed.
Lemma lower_n : forall a, ascii_lower a = "n" <-> same_letter a "n".
Proof. by_letter 13%N. Qed.
Lemma lower_t : forall a, ascii_lower a = "t" <-> same_letter a "t".
Proof. by_letter 19%N. Qed.
Lemma lower_y : forall a, ascii_lower a = "y" <-> same_letter a "y".
Proof. by_letter 24%N. Qed.

Lemma lower_letter : forall a b, In b (lit "infinitya") -> ascii_lower a = b <-> same_letter a b.
Proof.
  intros a b Hb. cbn in Hb.
  repeat (destruct Hb as [<-|Hb];
    [first [apply lower_a|apply lower_f|apply lower_i|apply lower_n|apply lower_t|apply lower_y]|]). destruct Hb.
Qed.

Lemma lower_word : forall w u, incl u (lit "infinitya") -> map ascii_lower w = u <-> Forall2 same_letter w u.
Proof.
  intros w. induction w as [|a w IH]; intros u Hu; cbn [map].
  - split; [intros <-; constructor|]. intros H. now inversion H.
  - split.
    + intros <-. constructor; [apply lower_letter; auto; apply Hu; now left|]. apply IH; auto.
      intros x Hx. apply Hu. now right.
    + intros H. inversion H as [|? b ? u' H1 H2]; subst. f_equal; [apply lower_letter; auto; apply Hu; now left|].
      apply IH; auto. intros x Hx. apply Hu. now right.
Qed.

Lemma word_not_decimal : forall s, parse_decimal s <> None -> forall w, map ascii_lower s = w ->
  w <> lit "inf" /\ w <> lit "infinity" /\ w <> lit "nan".
Proof.
  intros s H w E. destruct (parse_decimal s) as [[m e]|] eqn:Ed; [|congruence].
  destruct (parse_decimal_inv _ _ _ Ed) as (mt & k & ex & e1 & -> & Hm & _).
  assert (Hx : exists c r, mt = c :: r /\ (digit_val c <> None \/ c = ".")).
  { destruct Hm as [ds m Hne Hd|a b m Hne Hd].
    - destruct ds as [|c ds]; [congruence|]. apply digits_val_digits in Hd. cbn in Hd. exists c, ds. split; auto.
      left. destruct (digit_val c); congruence.
    - destruct a as [|c a]; [exists ".", b; auto|]. cbn in Hd. apply digits_val_digits in Hd. cbn in Hd.
      exists c, (a ++ "." :: b). split; auto. left. destruct (digit_val c); congruence. }
  destruct Hx as (c & r & -> & Hc). subst w. cbn [app map].
  assert (Hl : ascii_lower c <> "i" /\ ascii_lower c <> "n").
  { destruct c as [[] [] [] [] [] [] [] []]; cbn in Hc |- *; (destruct Hc as [Hc|Hc]; [try congruence|try discriminate Hc]); split; discriminate. }
  repeat split; intros C; injection C as C _; tauto.
Qed.

Lemma letter_first : forall w u, Forall2 same_letter w u -> u = lit "inf" \/ u = lit "infinity" \/ u = lit "nan" ->
  forall c r, w = c :: r -> c <> "-" /\ c <> "+".
Proof.
  intros w u H Hu c r ->. assert (Hi : incl u (lit "infinitya")) by (intros x Hx; destruct Hu as [->|[->| ->]]; cbn in *; tauto).
  apply lower_word in H; auto. split; intros ->; cbn in H; destruct Hu as [->|[->| ->]]; discriminate.
Qed.

Theorem parse_f64_iff : forall s x, parse_f64 s = Some x <->
  (exists sg mt ex neg m k e e', s = sg ++ mt ++ ex /\ sign_text sg neg /\ mantissa_text mt m k /\ exponent_text ex e /\
     saturated e e' /\ parse_decimal (mt ++ ex) = Some (m, (e' - Z.of_nat k)%Z) /\ x = decimal_to_f64 neg m (e' - Z.of_nat k)) \/
  (exists neg, infinity_text s neg /\ x = SpecFloat.S754_infinity neg) \/
  (nan_text s /\ x = SpecFloat.S754_nan).
Proof.
  intros s x. rewrite parse_f64_body. split.
  - destruct (split_sign s) as [neg body] eqn:Es. apply split_sign_inv in Es. destruct Es as (sg & -> & Hs). unfold parse_body.
    destruct (parse_decimal body) as [[m e0]|] eqn:Ed.
    + intros E. injection E as <-. left. destruct (parse_decimal_inv _ _ _ Ed) as (mt & k & ex & e & -> & Hm & He).
      destruct (parse_decimal_text _ _ _ _ _ Hm He) as (e' & Hsat & E'). rewrite E' in Ed. injection Ed as <-.
      exists sg, mt, ex, neg, m, k, e, e'. repeat (split; [assumption || reflexivity|]). reflexivity.
    + cbv zeta. intros E. destruct (bytes_eqb_spec (map ascii_lower body) (lit "inf")) as [E1|_].
      { cbn in E. injection E as <-. right. left. exists neg. split; auto. exists sg, body. repeat split; auto. left.
        apply lower_word; auto. intros y Hy; cbn in *; tauto. }
      destruct (bytes_eqb_spec (map ascii_lower body) (lit "infinity")) as [E1|_].
      { cbn in E. injection E as <-. right. left. exists neg. split; auto. exists sg, body. repeat split; auto. right.
        apply lower_word; auto. intros y Hy; cbn in *; tauto. }
      destruct (bytes_eqb_spec (map ascii_lower body) (lit "nan")) as [E1|_]; [|discriminate].
      injection E as <-. right. right. split; auto. exists sg, neg, body. repeat split; auto.
      apply lower_word; auto. intros y Hy; cbn in *; tauto.
  - assert (K : forall w u, Forall2 same_letter w u -> u = lit "inf" \/ u = lit "infinity" \/ u = lit "nan" ->
                map ascii_lower w = u /\ parse_decimal w = None).
    { intros w u H Hu. assert (Hi : incl u (lit "infinitya")) by (intros y Hy; destruct Hu as [->|[->| ->]]; cbn in *; tauto).
      apply lower_word in H; auto. split; auto. destruct (parse_decimal w) eqn:Ed; auto.
      destruct (word_not_decimal w ltac:(congruence) _ H) as (? & ? & ?). tauto. }
    intros [(sg & mt & ex & neg & m & k & e & e' & -> & Hs & Hm & He & Hsat & Ed & ->)|[(neg & (sg & w & -> & Hs & Hw) & ->)|((sg & neg & w & -> & Hs & Hw) & ->)]].
    + rewrite (split_sign_app sg neg (mt ++ ex) Hs).
      2:{ destruct (mantissa_first _ _ _ Hm) as (c & r & -> & Hc). intros c' r' E. cbn in E. injection E as -> _. exact Hc. }
      unfold parse_body. now rewrite Ed.
    + rewrite (split_sign_app sg neg w Hs).
      2:{ destruct Hw as [Hw|Hw]; eapply letter_first; eauto. }
      unfold parse_body. destruct Hw as [Hw|Hw]; (destruct (K _ _ Hw) as [-> ->]; auto).
    + rewrite (split_sign_app sg neg w Hs).
      2:{ eapply letter_first; eauto. }
      unfold parse_body. destruct (K _ _ Hw) as [-> ->]; auto.
Qed.
