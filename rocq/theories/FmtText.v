(** The text that [Display] gives for a number, and that there is only one. *)
From Coq Require Import Lra Psatz DecimalFacts DecimalPos DecimalN.
From Verif Require Import RustFmt DisplayModel FmtSpec NumberProofs FloatProofs FmtProofs FmtBest FmtShort.
Local Open Scope char_scope.
Local Open Scope list_scope.
Local Open Scope R_scope.

(** * Signs *)

Definition flip (x : f64) : f64 :=
  match x with
  | S754_zero s => S754_zero (negb s)
  | S754_infinity s => S754_infinity (negb s)
  | S754_finite s m e => S754_finite (negb s) m e
  | S754_nan => S754_nan
  end.

Lemma flip_flip : forall x, flip (flip x) = x.
Proof. intros [s|s| |s m e]; cbn; rewrite ?negb_involutive; reflexivity. Qed.

Lemma flip_f64 : forall x, is_f64 x -> is_f64 (flip x).
Proof. intros [s|s| |s m e] H; exact H. Qed.

Lemma flip_finite : forall x, finite x -> finite (flip x).
Proof. intros [s|s| |s m e] H; exact H. Qed.

Lemma flip_value : forall x, value (flip x) = - value x.
Proof. intros [s|s| |s m e]; cbn; try lra. destruct s; cbn; lra. Qed.

Lemma flip_even : forall x, even_mantissa x -> even_mantissa (flip x).
Proof. intros [s|s| |s m e] H; exact H. Qed.

Lemma decimal_flip : forall neg m e, decimal (negb neg) m e = - decimal neg m e.
Proof. intros [|] m e; unfold decimal; cbn; lra. Qed.

Lemma nearest_flip : forall neg r x, x <> S754_nan -> nearest neg r x -> nearest (negb neg) (- r) (flip x).
Proof.
  intros neg r x Hn (H1 & H2 & H3 & H4). split; [now apply flip_f64|].
  split; [destruct x; cbn in *; congruence|]. rewrite Rabs_Ropp. split.
  - intros Hr. destruct (H3 Hr) as (F & N & T). split; [now apply flip_finite|].
    assert (E : forall y, Rabs (value y - - r) = Rabs (value (flip y) - r)).
    { intros y. rewrite flip_value, <- Rabs_Ropp. f_equal. lra. }
    split.
    + intros y Hy Fy. rewrite !E, flip_flip. apply N; [now apply flip_f64|now apply flip_finite].
    + intros y Hy Fy. rewrite !E, flip_flip. intros Ey Ne. apply flip_even. apply (T (flip y)); auto; [now apply flip_f64|now apply flip_finite|].
      rewrite flip_value in *. lra.
  - intros Hr. rewrite (H4 Hr). reflexivity.
Qed.

Lemma best_flip : forall neg m e x, x <> S754_nan -> best_decimal neg m e x -> best_decimal (negb neg) m e (flip x).
Proof.
  intros neg m e x Hn (H1 & H2 & H3).
  assert (K : forall m' e', nearest (negb neg) (decimal (negb neg) m' e') (flip x) -> nearest neg (decimal neg m' e') x).
  { intros m' e' H. apply nearest_flip in H; [|destruct x; discriminate || congruence].
    rewrite negb_involutive, decimal_flip, Ropp_involutive, flip_flip in H. exact H. }
  assert (E : forall m' e', Rabs (decimal (negb neg) m' e' - value (flip x)) = Rabs (decimal neg m' e' - value x)).
  { intros m' e'. rewrite decimal_flip, flip_value, <- Rabs_Ropp. f_equal. lra. }
  split; [rewrite decimal_flip; now apply nearest_flip|]. split.
  - intros m' e' n HN. apply (H2 m' e'). now apply K.
  - intros m' e' HN Hd. rewrite !E, !decimal_flip, !Rabs_Ropp. apply H3; auto.
Qed.

Lemma best_shift : forall neg d i j x, best_decimal neg d (j + Z.of_N i) x -> best_decimal neg (d * 10 ^ i) j x.
Proof.
  intros neg d i j x (H1 & H2 & H3). split; [|split].
  - now rewrite decimal_shift.
  - intros m' e' n HN Hn. apply at_most_shift. eauto.
  - intros m' e' HN Hn. rewrite decimal_shift. apply H3; auto. intros n Hd. apply Hn. now apply at_most_shift.
Qed.

(** * Texts *)

Local Open Scope nat_scope.

Lemma digits_app_inv : forall s c n, digits (s ++ [c]) n -> exists n' d, digits s n' /\ digit c d /\ n = (10 * n' + d)%N.
Proof.
  intros s c n H. inversion H as [E|s' n' c' d H1 H2 E]; subst.
  - destruct s; discriminate.
  - apply app_inj_tail in E. destruct E as [-> ->]. eauto.
Qed.

Lemma digit_range : forall c d, digit c d -> (d < 10)%N.
Proof. intros c d H. inversion H; subst; reflexivity. Qed.

Lemma digit_det : forall c c' d, digit c d -> digit c' d -> c = c'.
Proof. intros c c' d H H'. inversion H; subst; inversion H'; subst; reflexivity. Qed.

Lemma digit_zero : forall c d, digit c d -> d = 0%N <-> c = "0"%char.
Proof. intros c d H. inversion H; subst; split; intros; congruence || reflexivity. Qed.

Lemma digits_last : forall s c n, digits (s ++ [c]) n -> (n mod 10 <> 0)%N <-> c <> "0"%char.
Proof.
  intros s c n H. apply digits_app_inv in H. destruct H as (n' & d & _ & Hd & ->).
  pose proof (digit_range _ _ Hd). pose proof (digit_zero _ _ Hd) as Z. rewrite N.add_comm, N.mul_comm, N.mod_add, N.mod_small by lia. tauto.
Qed.

(** Digits without a zero in front are not 0. *)
Lemma digits_first : forall c a n, digits (c :: a) n -> c <> "0"%char -> n <> 0%N.
Proof.
  intros c a. induction a as [|b a IH] using rev_ind; intros n H Hc.
  - change [c] with ([] ++ [c]) in H. apply digits_last in H. intros ->. apply H in Hc. now apply Hc.
  - change (c :: a ++ [b]) with ((c :: a) ++ [b]) in H. apply digits_app_inv in H. destruct H as (n' & d & H & _ & ->).
    specialize (IH _ H Hc). lia.
Qed.

Lemma plain_unique : forall a a' n, plain_integer a -> plain_integer a' -> digits a n -> digits a' n -> a = a'.
Proof.
  intros a. induction a as [|c a IH] using rev_ind; intros a' n Ha Ha' H H'.
  - destruct Ha as [E|(c & b & E & _)]; discriminate.
  - destruct (exists_last (l := a')) as (a2 & c2 & ->); [destruct Ha' as [->|(?&?&->&_)]; discriminate|].
    apply digits_app_inv in H. destruct H as (n1 & d1 & H1 & D1 & ->).
    apply digits_app_inv in H'. destruct H' as (n2 & d2 & H2 & D2 & E).
    pose proof (digit_range _ _ D1). pose proof (digit_range _ _ D2).
    assert (n1 = n2 /\ d1 = d2) as [<- <-] by lia. rewrite (digit_det _ _ _ D1 D2). f_equal.
    assert (Hshape : forall b c, plain_integer (b ++ [c]) -> b = [] \/ exists z b', b = z :: b' /\ z <> "0"%char).
    { intros b z [Eb|(y & b' & Eb & Hy)].
      - left. destruct b as [|? b]; auto. destruct b; discriminate.
      - destruct b as [|z' b]; [now left|]. right. injection Eb as E1 E2. subst. eauto. }
    destruct (Hshape _ _ Ha) as [->|(z & b & -> & Hz)]; destruct (Hshape _ _ Ha') as [->|(z' & b' & -> & Hz')]; auto.
    + inversion H1 as [E0|? ? ? ? ? ? E0]; [subst n1|destruct s; discriminate]. exfalso. eapply digits_first; eauto.
    + inversion H2 as [E0|? ? ? ? ? ? E0]; [subst n1|destruct s; discriminate]. exfalso. eapply digits_first; eauto.
    + apply IH with n1; auto; right; eauto.
Qed.

Lemma digits_split : forall a b n, digits (a ++ b) n ->
  exists x y, digits a x /\ digits b y /\ n = (x * 10 ^ N.of_nat (List.length b) + y)%N /\ (y < 10 ^ N.of_nat (List.length b))%N.
Proof.
  intros a b. induction b as [|c b IH] using rev_ind; intros n H.
  - rewrite app_nil_r in H. exists n, 0%N. repeat split; auto; [constructor|cbn; lia].
  - rewrite app_assoc in H. apply digits_app_inv in H. destruct H as (n' & d & H & Hd & ->).
    destruct (IH _ H) as (x & y & Hx & Hy & -> & L). pose proof (digit_range _ _ Hd).
    exists x, (10 * y + d)%N. rewrite app_length. cbn [List.length]. rewrite Nat.add_1_r, Nat2N.inj_succ, N.pow_succ_r'.
    split; [exact Hx|]. split; [now constructor|]. split; nia.
Qed.

Lemma digits_same : forall s s' n, List.length s = List.length s' -> digits s n -> digits s' n -> s = s'.
Proof.
  intros s. induction s as [|c s IH] using rev_ind; intros s' n L H H'.
  - destruct s'; [reflexivity|discriminate].
  - destruct (exists_last (l := s')) as (s2 & c2 & ->); [intros ->; rewrite app_length in L; cbn in L; lia|].
    rewrite !app_length in L. cbn in L.
    apply digits_app_inv in H. destruct H as (n1 & d1 & H1 & D1 & ->).
    apply digits_app_inv in H'. destruct H' as (n2 & d2 & H2 & D2 & E).
    pose proof (digit_range _ _ D1). pose proof (digit_range _ _ D2).
    assert (n1 = n2 /\ d1 = d2) as [<- <-] by lia. rewrite (digit_det _ _ _ D1 D2). f_equal. apply IH with n1; auto. lia.
Qed.

(** ** [show_N] *)

Lemma show_N_plain : forall n, n <> 0%N -> exists c a, show_N n = c :: a /\ c <> "0"%char.
Proof.
  intros n Hn. unfold show_N.
  pose proof (DecimalN.Unsigned.to_of (N.to_uint n)) as E. rewrite DecimalN.Unsigned.of_to in E.
  assert (Hz : forall d, match Decimal.nzhead d with Decimal.D0 _ => False | _ => True end).
  { induction d; cbn; auto. }
  specialize (Hz (N.to_uint n)). unfold Decimal.unorm in E.
  assert (H0 : N.to_uint n <> Decimal.zero).
  { intros K. apply Hn. rewrite <- (DecimalN.Unsigned.of_to n), K. reflexivity. }
  destruct (Decimal.nzhead (N.to_uint n)) eqn:H; try contradiction; rewrite E; try (eexists _, _; split; [reflexivity|discriminate]).
Qed.

Lemma plain_show_N : forall n, plain_integer (show_N n).
Proof.
  intros n. destruct (N.eq_dec n 0) as [->|H]; [left; reflexivity|right]. now apply show_N_plain.
Qed.

(** ** [write_decimal] *)

Lemma split_last : forall s n, digits s n -> (n mod 10 <> 0)%N -> exists s' c, s = s' ++ [c] /\ c <> "0"%char.
Proof.
  intros s n H Hn. destruct (exists_last (l := s)) as (s' & c & ->); [intros ->; inversion H as [E|? ? ? ? ? ? E]; subst; [now apply Hn|destruct s; discriminate]|].
  exists s', c. split; auto. eapply digits_last; eauto.
Qed.

Lemma write_plain : forall neg d j, (d mod 10 <> 0)%N -> exists m k i,
  plain_text ((if neg : bool then ["-"] else []) ++ write_decimal d j)%char%list neg m k /\ m = (d * 10 ^ i)%N /\ (j = - Z.of_nat k + Z.of_N i)%Z.
Proof.
  intros neg d j Hd. assert (H0 : d <> 0%N) by (intros ->; now apply Hd).
  pose proof (show_N_digits d) as Hs. destruct (show_N_plain d H0) as (c & a & Ea & Hc).
  unfold write_decimal. destruct (Z.leb_spec 0 j) as [Hj|Hj].
  - exists (d * 10 ^ N.of_nat (Z.to_nat j))%N, 0, (N.of_nat (Z.to_nat j)). split; [|split; [reflexivity|lia]].
    apply plain_whole; [|now apply digits_zeros_after]. right. rewrite Ea. eexists _, _. split; [reflexivity|exact Hc].
  - set (k := Z.to_nat (- j)). exists d, k, 0%N. split; [|split; lia].
    destruct (split_last _ _ Hs Hd) as (s & z & Es & Hz).
    destruct (Nat.ltb_spec k (List.length (show_N d))) as [Hlt|Hge].
    + set (n := List.length (show_N d) - k).
      assert (Ef : firstn n (show_N d) ++ skipn n (show_N d) = show_N d) by apply firstn_skipn.
      assert (Hk : k = List.length (skipn n (show_N d))) by (rewrite skipn_length; unfold n; lia).
      assert (Hp : plain_integer (firstn n (show_N d))).
      { right. rewrite Ea. destruct n as [|n1] eqn:En; [lia|]. cbn [firstn]. eexists _, _. split; [reflexivity|exact Hc]. }
      assert (Hsk : exists b, skipn n (show_N d) = b ++ [z]).
      { exists (skipn n s). assert (EL : List.length (show_N d) = S (List.length s)) by (rewrite Es, app_length; cbn; lia).
        assert (n - List.length s = 0) as E0 by (unfold n; lia). rewrite Es, skipn_app, E0. reflexivity. }
      destruct Hsk as [b Eb]. rewrite Eb in *. rewrite app_length in Hk. cbn [List.length] in Hk.
      assert (k = S (List.length b)) as -> by lia. apply plain_point; auto. rewrite Ef. exact Hs.
    + rewrite Es. rewrite app_assoc. set (b := repeat "0"%char (k - List.length (s ++ [z])) ++ s).
      assert (Hk : k = S (List.length b)).
      { unfold b. rewrite app_length, repeat_length. rewrite Es, app_length in Hge. rewrite app_length. cbn [List.length] in *. lia. }
      rewrite Hk. change ("0" :: "." :: b ++ [z])%char%list with (["0"] ++ "." :: b ++ [z])%char%list.
      apply plain_point; [now left| |exact Hz]. unfold b. cbn [app]. apply digits_zero_before. rewrite <- app_assoc, <- Es.
      now apply digits_zeros_before.
Qed.

Lemma show_best : forall s m e, is_f64 (S754_finite s m e) -> exists d k,
  plain_text (show_f64 (S754_finite s m e)) s d k /\ best_decimal s d (- Z.of_nat k) (S754_finite s m e).
Proof.
  intros s m e H. cbn [show_f64]. destruct (decimal_of_best m e H) as (d & j & -> & Hb & Hd).
  destruct (write_plain s d j Hd) as (d' & k & i & Ht & -> & ->). exists (d * 10 ^ i)%N, k.
  split; [destruct s; exact Ht|]. apply best_shift. destruct s; auto.
  change true with (negb false). change (S754_finite (negb false) m e) with (flip (S754_finite false m e)). apply best_flip; auto. discriminate.
Qed.

(** ** Only one text *)

Lemma plain_mod : forall s neg m k, plain_text s neg m (S k) -> (m mod 10 <> 0)%N.
Proof.
  intros s neg m k H. inversion H; subst.
  match goal with K : digits (?a ++ ?b ++ [?c]) m |- _ => rewrite app_assoc in K; apply digits_last in K; now apply K end.
Qed.

Lemma plain_text_same : forall s s' neg m k, plain_text s neg m k -> plain_text s' neg m k -> s = s'.
Proof.
  intros s s' neg m k H H'.
  destruct H as [neg a m Ha Hd|neg a b c m Ha Hd Hc].
  - inversion H'; subst. f_equal. eapply plain_unique; eauto.
  - inversion H' as [|neg' a' b' c' m' Ha' Hd' Hc' E1 E2 E3 E4]; subst neg' m'.
    destruct (digits_split _ _ _ Hd) as (x & y & D1 & D2 & E & L). destruct (digits_split _ _ _ Hd') as (x' & y' & D1' & D2' & E' & L').
    assert (El : List.length (b ++ [c]) = List.length (b' ++ [c'])) by (rewrite !app_length; cbn; lia).
    rewrite El in E, L. rewrite E in E'.
    assert (x = x' /\ y = y') as [<- <-]. { set (B := (10 ^ N.of_nat (List.length (b' ++ [c'])))%N) in *. apply (N.div_mod_unique B); auto. lia. }
    rewrite (digits_same _ _ _ El D2 D2'). rewrite (plain_unique _ _ _ Ha Ha' D1 D1'). reflexivity.
Qed.

Lemma decimal_eq : forall neg m m' e e', decimal neg m e = decimal neg m' e' -> (e' <= e)%Z -> m' = (m * 10 ^ Z.to_N (e - e'))%N.
Proof.
  intros neg m m' e e' H L. unfold decimal in H. assert (K : (IZR (Z.of_N m) * powerRZ 10 e = IZR (Z.of_N m') * powerRZ 10 e')%R).
  { destruct neg; cbn in H; lra. }
  rewrite (pow10_split e e'), <- Rmult_assoc in K. apply Rmult_eq_reg_r in K; [|pose proof (pow10_pos e'); lra].
  rewrite <- (IZR_pow 10 (e - e')), <- mult_IZR in K by lia. apply eq_IZR in K. apply N2Z.inj. rewrite N2Z.inj_mul, N2Z.inj_pow, Z2N.id by lia. now rewrite <- K.
Qed.

Lemma plain_same : forall s s' neg m m' k k', plain_text s neg m k -> plain_text s' neg m' k' ->
  decimal neg m (- Z.of_nat k) = decimal neg m' (- Z.of_nat k') -> k <= k' -> s = s'.
Proof.
  intros s s' neg m m' k k' H H' E L. apply decimal_eq in E; [|lia].
  destruct (Nat.eq_dec k k') as [->|Ne].
  - replace (- Z.of_nat k' - - Z.of_nat k')%Z with 0%Z in E by lia. rewrite N.mul_1_r in E. subst m'. eapply plain_text_same; eauto.
  - destruct k' as [|k']; [lia|]. apply plain_mod in H'. exfalso. apply H'. rewrite E.
    replace (Z.to_N (- Z.of_nat k - - Z.of_nat (S k'))) with (N.succ (N.of_nat (k' - k))) by lia.
    rewrite N.pow_succ_r', N.mul_assoc, (N.mul_comm m 10), <- N.mul_assoc, N.mul_comm, N.mod_mul; lia.
Qed.

Lemma best_same : forall neg m e m' e' x, best_decimal neg m e x -> best_decimal neg m' e' x -> decimal neg m e = decimal neg m' e'.
Proof.
  intros neg m e m' e' x (H1 & H2 & H3) (H1' & H2' & H3').
  destruct (H3 m' e' H1') as [A B]; [intros n; apply (H2' m e); auto|].
  destruct (H3' m e H1) as [A' B']; [intros n; apply (H2 m' e'); auto|].
  assert (E : Rabs (decimal neg m e - value x) = Rabs (decimal neg m' e' - value x)) by lra.
  specialize (B E). specialize (B' (eq_sym E)).
  assert (K : forall m e, (if neg then decimal neg m e <= 0 else 0 <= decimal neg m e)%R).
  { intros m0 e0. assert (0 <= IZR (Z.of_N m0) * powerRZ 10 e0)%R.
    { apply Rmult_le_pos; [apply IZR_le; lia|]. pose proof (pow10_pos e0). lra. }
    unfold decimal. destruct neg; cbn; lra. }
  pose proof (K m e) as K1. pose proof (K m' e') as K2.
  destruct neg; [rewrite !Rabs_left1 in B, B' by auto|rewrite !Rabs_pos_eq in B, B' by auto]; lra.
Qed.

Lemma show_determined : forall s m e t d k, is_f64 (S754_finite s m e) -> plain_text t s d k ->
  best_decimal s d (- Z.of_nat k) (S754_finite s m e) -> t = show_f64 (S754_finite s m e).
Proof.
  intros s m e t d k H Ht Hb. destruct (show_best s m e H) as (d' & k' & Ht' & Hb').
  pose proof (best_same _ _ _ _ _ _ Hb Hb') as E. destruct (Nat.le_ge_cases k k') as [L|L].
  - eapply plain_same; eauto.
  - symmetry. eapply plain_same; eauto.
Qed.

(** * All numbers *)

Lemma show_number_text : forall x t, is_f64 x -> show_f64 x = t <-> number_text t x.
Proof.
  intros x t Hx. split.
  - intros <-. destruct x as [s|s| |s m e].
    + destruct s; [apply (text_zero true)|apply (text_zero false)].
    + destruct s; [apply (text_infinity true)|apply (text_infinity false)].
    + apply text_nan.
    + destruct (show_best s m e Hx) as (d & k & Ht & Hb). eapply text_finite; eauto.
  - intros H. destruct H as [t s m e d k Ht Hb|s|s|].
    + symmetry. eapply show_determined; eauto.
    + destruct s; reflexivity.
    + destruct s; reflexivity.
    + reflexivity.
Qed.

Lemma show_fewest : forall s m e t neg d k e', is_f64 (S754_finite s m e) ->
  decimal_text t neg d k e' -> (Z.of_nat (List.length t) <= 60000)%Z \/ (-65536 < e' < 65536)%Z ->
  parse_f64 t = Some (S754_finite s m e) ->
  exists d' k', plain_text (show_f64 (S754_finite s m e)) s d' k' /\ parse_f64 (show_f64 (S754_finite s m e)) = Some (S754_finite s m e) /\
    forall n, at_most_digits n d -> at_most_digits n d'.
Proof.
  intros s m e t neg d k e' Hx Ht L P. destruct (show_best s m e Hx) as (d' & k' & Ht' & H1 & H2 & _).
  destruct (decimal_text_nearest _ _ _ _ _ Ht L) as (x & Ex & Nx). rewrite P in Ex. injection Ex as <-.
  assert (neg = s) as -> by (destruct Nx as (_ & E & _); symmetry; exact E).
  exists d', k'. split; [exact Ht'|]. split; [now apply show_f64_read|]. intros n. eapply H2; eauto.
Qed.

Lemma show_vertex_text : forall v t, is_f64 (vx v) -> is_f64 (vy v) -> is_f64 (vz v) -> is_f64 (vw v) ->
  show_vertex v = Some t <-> exists a b c d, number_text a (vx v) /\ number_text b (vy v) /\ number_text c (vz v) /\ number_text d (vw v) /\
    t = lit "v  " ++ a ++ lit "  " ++ b ++ lit "  " ++ c ++ lit "  " ++ d.
Proof.
  intros v t H1 H2 H3 H4. unfold show_vertex. cbn [join piece]. rewrite app_nil_r. split.
  - intros E. injection E as <-. eexists _, _, _, _. repeat (split; [apply show_number_text; auto|]). reflexivity.
  - intros (a & b & c & d & A & B & C & D & ->).
    apply show_number_text in A, B, C, D; auto. subst. reflexivity.
Qed.

Lemma show_texture_text : forall v t, is_f64 (tu v) -> is_f64 (tv v) -> is_f64 (tw v) ->
  show_texture_vertex v = Some t <-> exists a b c, number_text a (tu v) /\ number_text b (tv v) /\ number_text c (tw v) /\
    t = lit "vt  " ++ a ++ lit "  " ++ b ++ lit "  " ++ c.
Proof.
  intros v t H1 H2 H3. unfold show_texture_vertex. cbn [join piece]. rewrite app_nil_r. split.
  - intros E. injection E as <-. eexists _, _, _. repeat (split; [apply show_number_text; auto|]). reflexivity.
  - intros (a & b & c & A & B & C & ->). apply show_number_text in A, B, C; auto. subst. reflexivity.
Qed.

Lemma show_normal_text : forall v t, is_f64 (nx v) -> is_f64 (ny v) -> is_f64 (nz v) ->
  show_normal_vertex v = Some t <-> exists a b c, number_text a (nx v) /\ number_text b (ny v) /\ number_text c (nz v) /\
    t = lit "vn  " ++ a ++ lit "  " ++ b ++ lit "  " ++ c.
Proof.
  intros v t H1 H2 H3. unfold show_normal_vertex. cbn [join piece]. rewrite app_nil_r. split.
  - intros E. injection E as <-. eexists _, _, _. repeat (split; [apply show_number_text; auto|]). reflexivity.
  - intros (a & b & c & A & B & C & ->). apply show_number_text in A, B, C; auto. subst. reflexivity.
Qed.
