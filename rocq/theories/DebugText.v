(** [Debug] of strings and numbers: the texts are literals that mean the value. *)
From Coq Require Import Floats.SpecFloat HexadecimalFacts HexadecimalN HexadecimalPos.
From Verif Require Import RustDebug DebugSpec FloatSpec FmtSpec NumberProofs FloatProofs FmtProofs FmtShort FmtText.
Local Open Scope char_scope.
Local Open Scope list_scope.

(** * Hexadecimal numbers *)

Fixpoint hex_val (acc : N) (d : Hexadecimal.uint) : N :=
  match d with
  | Hexadecimal.Nil => acc
  | Hexadecimal.D0 d => hex_val (16 * acc + 0) d
  | Hexadecimal.D1 d => hex_val (16 * acc + 1) d
  | Hexadecimal.D2 d => hex_val (16 * acc + 2) d
  | Hexadecimal.D3 d => hex_val (16 * acc + 3) d
  | Hexadecimal.D4 d => hex_val (16 * acc + 4) d
  | Hexadecimal.D5 d => hex_val (16 * acc + 5) d
  | Hexadecimal.D6 d => hex_val (16 * acc + 6) d
  | Hexadecimal.D7 d => hex_val (16 * acc + 7) d
  | Hexadecimal.D8 d => hex_val (16 * acc + 8) d
  | Hexadecimal.D9 d => hex_val (16 * acc + 9) d
  | Hexadecimal.Da d => hex_val (16 * acc + 10) d
  | Hexadecimal.Db d => hex_val (16 * acc + 11) d
  | Hexadecimal.Dc d => hex_val (16 * acc + 12) d
  | Hexadecimal.Dd d => hex_val (16 * acc + 13) d
  | Hexadecimal.De d => hex_val (16 * acc + 14) d
  | Hexadecimal.Df d => hex_val (16 * acc + 15) d
  end.

Lemma hex_acc : forall d p, hex_val (Npos p) d = Npos (Pos.of_hex_uint_acc d p).
Proof.
  induction d; intros p; [reflexivity|..]; cbn [hex_val Pos.of_hex_uint_acc]; rewrite <- IHd; f_equal; lia.
Qed.

Lemma hex_of : forall d, hex_val 0 d = Pos.of_hex_uint d.
Proof.
  induction d; [reflexivity|exact IHd|..]; cbn [hex_val Pos.of_hex_uint]; rewrite <- hex_acc; reflexivity.
Qed.

Lemma hex_val_digits : forall d s n, hex_digits s n -> hex_digits (s ++ hex_bytes d) (hex_val n d).
Proof.
  assert (K : forall d c k s n, (forall s n, hex_digits s n -> hex_digits (s ++ hex_bytes d) (hex_val n d)) -> hex_digit c k ->
     hex_digits s n -> hex_digits (s ++ c :: hex_bytes d) (hex_val (16 * n + k) d)).
  { intros d c k s n IH Hc Hs. change (c :: hex_bytes d) with ([c] ++ hex_bytes d). rewrite app_assoc. apply IH. now constructor. }
  induction d; intros s n H; [cbn; now rewrite app_nil_r|..]; cbn [hex_bytes hex_val]; apply K; auto; constructor; constructor.
Qed.

Lemma show_hex_digits : forall n, hex_digits (show_hex n) n.
Proof.
  intros n. pose proof (hex_val_digits (N.to_hex_uint n) [] 0%N hex_none) as H. cbn [app] in H. rewrite hex_of in H.
  assert (E : Pos.of_hex_uint (N.to_hex_uint n) = n) by exact (HexadecimalN.Unsigned.of_to n). rewrite E in H. exact H.
Qed.

Lemma show_hex_some : forall n, show_hex n <> [].
Proof.
  intros n. unfold show_hex. destruct n as [|p]; [discriminate|]. cbn [N.to_hex_uint].
  pose proof (HexadecimalPos.Unsigned.to_uint_nonnil p) as H. destruct (Pos.to_hex_uint p); congruence || discriminate.
Qed.

(** * UTF-8 *)

Lemma encode_utf8 : forall n, (n < 1114112)%N -> utf8 n (utf8_encode n).
Proof.
  intros n H. unfold utf8_encode.
  assert (Z64 : (64 <> 0)%N) by discriminate.
  pose proof (N.div_mod n 64 Z64). pose proof (N.mod_lt n 64 Z64).
  pose proof (N.div_mod (n / 64) 64 Z64). pose proof (N.mod_lt (n / 64) 64 Z64).
  pose proof (N.div_mod (n / 64 / 64) 64 Z64). pose proof (N.mod_lt (n / 64 / 64) 64 Z64). clear Z64.
  pose proof (N.le_0_l (n mod 64)). pose proof (N.le_0_l ((n / 64) mod 64)). pose proof (N.le_0_l ((n / 64 / 64) mod 64)).
  assert (E1 : (n / 4096 = n / 64 / 64)%N) by (rewrite N.div_div by lia; reflexivity).
  assert (E2 : (n / 262144 = n / 64 / 64 / 64)%N) by (rewrite !N.div_div by lia; reflexivity).
  destruct (N.ltb_spec n 128); [now constructor|].
  destruct (N.ltb_spec n 2048).
  { assert (E : n = (64 * (n / 64) + n mod 64)%N) by lia. rewrite E at 1. apply utf8_2; lia. }
  destruct (N.ltb_spec n 65536).
  { rewrite E1. assert (E : n = (4096 * (n / 64 / 64) + 64 * ((n / 64) mod 64) + n mod 64)%N) by lia. rewrite E at 1. apply utf8_3; lia. }
  rewrite E1, E2.
  assert (E : n = (262144 * (n / 64 / 64 / 64) + 4096 * ((n / 64 / 64) mod 64) + 64 * ((n / 64) mod 64) + n mod 64)%N) by lia.
  rewrite E at 1. apply utf8_4; lia.
Qed.

Lemma byte_value : forall n, (n < 256)%N -> N_of_ascii (ascii_of_N n) = n.
Proof. intros n H. now apply N_ascii_embedding. Qed.

Lemma utf8_high : forall n u, utf8 n u -> (128 <= n)%N -> Forall (fun c => c <> "034" /\ c <> "092") u.
Proof.
  assert (K : forall n, (128 <= n < 256)%N -> ascii_of_N n <> "034" /\ ascii_of_N n <> "092").
  { intros n H. split; intros E; apply (f_equal N_of_ascii) in E; rewrite byte_value in E by lia; cbn in E; lia. }
  intros n u H L. destruct H; repeat (constructor; [apply K; lia|]); constructor.
Qed.

Lemma characters_concat : forall s, concat (characters s) = s.
Proof.
  induction s as [|c s IH]; [reflexivity|]. cbn [characters]. destruct (characters s) as [|g gs] eqn:E.
  - cbn in IH. subst s. reflexivity.
  - destruct (continues s); cbn [concat app] in *; now rewrite IH.
Qed.

(** * Strings *)

Lemma body_app : forall t s t' s', literal_body t s -> literal_body t' s' -> literal_body (t ++ t') (s ++ s').
Proof.
  intros t s t' s' H H'. induction H; cbn [app]; auto using body_end, body_plain, body_simple.
  rewrite <- !app_assoc. cbn [app]. now apply body_unicode with (n := n).
Qed.

Lemma body_self : forall u, Forall (fun c => c <> "034" /\ c <> "092") u -> literal_body u u.
Proof. induction 1 as [|c u [H1 H2] _ IH]; auto using body_end, body_plain, body_simple. Qed.

Lemma unicode_escape_body : forall n u, utf8 n u -> literal_body (unicode_escape n) u.
Proof.
  intros n u H. rewrite <- (app_nil_r u). unfold unicode_escape.
  apply body_unicode with (n := n); auto using show_hex_some, show_hex_digits, body_end.
Qed.

Lemma escape_byte_body : forall c, literal_body (escape_byte c) [c].
Proof.
  intros c. unfold escape_byte.
  destruct (Ascii.eqb_spec c "000") as [->|_]; [apply (body_simple "0" "000"); constructor|].
  destruct (Ascii.eqb_spec c TAB) as [->|_]; [apply (body_simple "t" TAB); constructor|].
  destruct (Ascii.eqb_spec c CR) as [->|_]; [apply (body_simple "r" CR); constructor|].
  destruct (Ascii.eqb_spec c LF) as [->|_]; [apply (body_simple "n" LF); constructor|].
  destruct (Ascii.eqb_spec c quote) as [->|H1]; [apply (body_simple quote quote); constructor|].
  destruct (Ascii.eqb_spec c backslash) as [->|H2]; [apply (body_simple backslash backslash); constructor|]. cbn [orb].
  destruct (((N_of_ascii c <? 32) || (N_of_ascii c =? 127))%N) eqn:E; [|apply body_self; auto].
  apply unicode_escape_body. rewrite <- (ascii_N_embedding c) at 2. constructor.
  apply Bool.orb_true_iff in E. destruct E as [E|E]; [apply N.ltb_lt in E|apply N.eqb_eq in E]; lia.
Qed.

Lemma escape_bytes_body : forall g, literal_body (flat_map escape_byte g) g.
Proof.
  induction g as [|c g IH]; [constructor|]. cbn [flat_map]. change (c :: g) with ([c] ++ g).
  apply body_app; auto using escape_byte_body.
Qed.

Lemma decode_encode : forall g n, utf8_decode g = Some n -> utf8 n g /\ (128 <= n)%N.
Proof.
  intros g n H. unfold utf8_decode in H. destruct (_ && _ && _) eqn:E; [|discriminate]. injection H as <-.
  apply andb_true_iff in E. destruct E as [E E3]. apply andb_true_iff in E. destruct E as [E1 E2].
  apply N.leb_le in E1. apply N.ltb_lt in E2. apply bytes_eqb_eq in E3. split; auto. rewrite <- E3 at 2. now apply encode_utf8.
Qed.

Lemma escape_character_body : forall ch g, literal_body (escape_character ch g) g.
Proof.
  intros ch g. unfold escape_character. destruct (utf8_decode g) as [n|] eqn:E; [|apply escape_bytes_body].
  apply decode_encode in E. destruct E as [H L]. destruct (shown ch n); [|now apply unicode_escape_body].
  apply body_self. eapply utf8_high; eauto.
Qed.

Theorem debug_str_literal : forall ch s, exists t, debug_str ch s = "034" :: t ++ ["034"] /\ literal_body t s.
Proof.
  intros ch s. exists (flat_map (escape_character ch) (characters s)). split; [reflexivity|].
  rewrite <- (characters_concat s) at 2. induction (characters s) as [|g gs IH]; [constructor|].
  cbn [flat_map concat]. apply body_app; auto using escape_character_body.
Qed.

(** * Reading literals *)
Lemma hex_digit_det : forall c d d', hex_digit c d -> hex_digit c d' -> d = d'.
Proof.
  intros c d d' H H'. destruct H as [c d H| | | | | |]; inversion H' as [c' k K| | | | | |]; subst; auto;
    try (inversion K; fail); try (inversion H; fail). inversion H; subst; inversion K; reflexivity.
Qed.

Lemma hex_digits_det : forall s n n', hex_digits s n -> hex_digits s n' -> n = n'.
Proof.
  intros s n n' H. revert n'. induction H as [|s n c d H IH Hc]; intros n' H'; inversion H' as [E|s' m c' d' H1 H2 E]; subst; auto.
  - destruct s'; discriminate.
  - destruct s; discriminate.
  - apply app_inj_tail in E. destruct E as [-> ->]. rewrite (IH _ H1). rewrite (hex_digit_det _ _ _ Hc H2). reflexivity.
Qed.

Lemma utf8_det : forall n n' u u', utf8 n u -> utf8 n' u' -> n = n' -> u = u'.
Proof.
  intros n n' u u' H H' E. destruct H as [a|a b|a b c|a b c d]; destruct H' as [a'|a' b'|a' b' c'|a' b' c' d']; try (exfalso; lia);
    assert (a = a') as <- by lia; try (assert (b = b') as <- by lia); try (assert (c = c') as <- by lia); try (assert (d = d') as <- by lia); reflexivity.
Qed.

Lemma hex_no_brace : forall s n, hex_digits s n -> Forall (fun c => c <> "}") s.
Proof.
  induction 1 as [|s n c d _ IH Hc]; [constructor|]. apply Forall_app. split; [exact IH|]. constructor; [|constructor].
  intros ->. inversion Hc as [? ? K| | | | | |]. inversion K.
Qed.

Lemma split_at : forall (x : byte) a b r r', Forall (fun c => c <> x) a -> Forall (fun c => c <> x) b ->
  a ++ x :: r = b ++ x :: r' -> a = b /\ r = r'.
Proof.
  intros x a. induction a as [|c a IH]; intros [|d b] r r' Ha Hb E; cbn [app] in E.
  - injection E as ->. auto.
  - injection E as -> _. inversion Hb as [|? ? K]. now elim K.
  - injection E as -> _. inversion Ha as [|? ? K]. now elim K.
  - injection E as -> E. inversion Ha as [|? ? _ Ha']. inversion Hb as [|? ? _ Hb']. subst.
    destruct (IH _ _ _ Ha' Hb' E) as [-> ->]. auto.
Qed.

(** The closing quotation mark is found, and the string between the marks. *)
Theorem literal_unique : forall t s t' s' r r', literal_body t s -> literal_body t' s' ->
  t ++ "034" :: r = t' ++ "034" :: r' -> s = s' /\ r = r'.
Proof.
  intros t s t' s' r r' H. revert t' s'. induction H as [|c t s H1 H2 H IH|e c t s He H IH|h n u t s Hh Hn Hu H IH];
    intros t' s' H' E; destruct H' as [|c' t' s' H1' H2' H'|e' c' t' s' He' H'|h' n' u' t' s' Hh' Hn' Hu' H'];
    cbn [app] in E; try (injection E as E); subst; try congruence; auto.
  - destruct (IH _ _ H' H0) as [-> ->]. auto.
  - assert (c = c') as -> by (inversion He; subst; inversion He'; subst; reflexivity). destruct (IH _ _ H' H0) as [-> ->]. auto.
  - inversion He.
  - inversion He'.
  - rewrite <- !app_assoc in E. cbn [app] in E.
    destruct (split_at "}" _ _ _ _ (hex_no_brace _ _ Hn) (hex_no_brace _ _ Hn') E) as [-> E'].
    destruct (IH _ _ H' E') as [-> ->]. rewrite (hex_digits_det _ _ _ Hn Hn') in Hu. rewrite (utf8_det _ _ _ _ Hu Hu' eq_refl). auto.
Qed.
