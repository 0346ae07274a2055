(** [Debug] of numbers reads back, with the digits of [Display]. *)
From Coq Require Import Floats.SpecFloat Reals Lra.
From Verif Require Import RustDebug FloatSpec FmtSpec NumberProofs FloatProofs FmtProofs FmtShort FmtText.
Local Open Scope char_scope.
Local Open Scope list_scope.

Lemma show_Z_exponent : forall z, exponent_text ("e" :: show_Z z) z.
Proof.
  intros z. destruct z as [|p|p]; cbn [show_Z].
  - apply (exponent_some "e" [] false (show_N 0) 0); auto using sign_none, show_N_some, show_N_digits.
  - apply (exponent_some "e" [] false (show_N (Npos p)) (Npos p)); auto using sign_none, show_N_some, show_N_digits.
  - apply (exponent_some "e" ["-"] true (show_N (Npos p)) (Npos p)); auto using sign_minus, show_N_some, show_N_digits.
Qed.

Lemma plain_mantissa : forall t m k, plain_text t false m k -> mantissa_text t m k.
Proof.
  intros t m k H. remember false as neg eqn:E. destruct H as [neg a m Ha Hd|neg a b c m Ha Hd Hc]; subst; cbn [app].
  - constructor; auto. destruct Ha as [->|(?&?&->&_)]; discriminate.
  - assert (L : S (List.length b) = List.length (b ++ [c])) by (rewrite app_length; cbn; lia). rewrite L. constructor; auto.
    destruct a; [destruct b|]; discriminate.
Qed.

(** A point or an exponent shows that the number is not an integer of Rust. *)
Definition marked (t : bytes) : Prop := In "." t \/ In "e" t.

Lemma write_pointed_text : forall d j, (d mod 10 <> 0)%N -> exists m k i,
  mantissa_text (write_pointed d j) m k /\ m = (d * 10 ^ i)%N /\ (j = - Z.of_nat k + Z.of_N i)%Z /\ In "." (write_pointed d j).
Proof.
  intros d j Hd. destruct (write_plain false d j Hd) as (m & k & i & Ht & -> & Hj). cbn [app] in Ht. unfold write_pointed.
  destruct (Z.leb_spec 0 j) as [L|L].
  - unfold write_decimal in *. destruct (Z.leb_spec 0 j); [|lia].
    exists (d * 10 ^ N.of_nat (Z.to_nat j) * 10)%N, 1, (N.of_nat (Z.to_nat j) + 1)%N. split; [|split; [|split]].
    + change (lit ".0") with ("." :: ["0"]). apply (mantissa_point _ ["0"]).
      * destruct (show_N d) eqn:E; [now apply show_N_some in E|discriminate].
      * rewrite <- app_assoc, <- (repeat_cons (Z.to_nat j) "0"). change ("0" :: repeat "0" (Z.to_nat j)) with (repeat "0" (S (Z.to_nat j))).
        replace (d * 10 ^ N.of_nat (Z.to_nat j) * 10)%N with (d * 10 ^ N.of_nat (S (Z.to_nat j)))%N.
        { apply digits_zeros_after, show_N_digits. }
        rewrite Nat2N.inj_succ, N.pow_succ_r'. lia.
    + rewrite N.pow_add_r. lia.
    + lia.
    + apply in_or_app. right. now left.
  - exists (d * 10 ^ i)%N, k, i. split; [now apply plain_mantissa|]. split; auto. split; auto.
    inversion Ht as [neg a m Ha H1 E1|neg a b c m Ha H1 Hc E1]; subst; [lia|]. cbn [app] in *.
    apply in_or_app. right. now left.
Qed.

Lemma write_exponent_text : forall d j, d <> 0%N -> exists k e mt ex, write_exponent d j = mt ++ ex /\
  mantissa_text mt d k /\ exponent_text ex e /\ (j = e - Z.of_nat k)%Z /\ In "e" (write_exponent d j) /\
  (10 ^ N.of_nat k <= d < 10 ^ N.of_nat (S k))%N.
Proof.
  intros d j Hd. destruct (show_N_plain d Hd) as (c & r & E & Hc). unfold write_exponent. pose proof (show_N_digits d) as H. rewrite E in *.
  exists (List.length r), (j + Z.of_nat (List.length r))%Z.
  exists (c :: match r with [] => [] | _ => "." :: r end), ("e" :: show_Z (j + Z.of_nat (List.length r))).
  split; [reflexivity|]. split; [|split; [apply show_Z_exponent|split; [lia|split]]].
  - destruct r as [|x r]; [constructor; [discriminate|exact H]|]. apply (mantissa_point [c] (x :: r)); [discriminate|exact H].
  - right. apply in_or_app. right. now left.
  - pose proof (digits_bound _ _ H) as B. cbn [List.length] in B.
    change (c :: r) with ([c] ++ r) in H. apply digits_split in H. destruct H as (x & y & H1 & H2 & -> & Hy). apply digits_first in H1; auto.
    split; [nia|]. apply N2Z.inj_lt. rewrite N2Z.inj_pow, nat_N_Z. exact B.
Qed.

Lemma decimal_huge : forall neg m e l, (10 ^ l <= m)%N -> (400 <= Z.of_N l + e)%Z -> decimal_to_f64 neg m e = S754_infinity neg.
Proof.
  intros neg m e l Hm He. destruct (decimal_nearest neg m e) as (_ & _ & _ & H). apply H. clear H.
  unfold decimal. rewrite signed_abs. assert (Hp : (0 < powerRZ 10 e)%R) by (apply powerRZ_lt; lra).
  assert (H1 : (powerRZ 10 (Z.of_N l) <= IZR (Z.of_N m))%R).
  { rewrite <- IZR_pow by lia. apply IZR_le. apply N2Z.inj_le in Hm. rewrite N2Z.inj_pow in Hm. exact Hm. }
  assert (H2 : (powerRZ 10 400 <= powerRZ 10 (Z.of_N l) * powerRZ 10 e)%R).
  { rewrite <- powerRZ_add by lra. now apply powerRZ_10_le. }
  pose proof powerRZ_2_400. assert (0 < powerRZ 10 (Z.of_N l))%R by (apply powerRZ_lt; lra).
  rewrite Rabs_pos_eq by nra. nra.
Qed.

(** The sign in front. *)
Lemma signed_best : forall (s : bool) d j m e, best_decimal false d j (S754_finite false m e) -> best_decimal s d j (S754_finite s m e).
Proof.
  intros [|] d j m e H; auto. change true with (negb false) at 1. change (S754_finite true m e) with (flip (S754_finite false m e)).
  apply best_flip; auto. discriminate.
Qed.

Theorem debug_f64_text : forall ch s m e, is_f64 (S754_finite s m e) -> exists d k e',
  decimal_text (debug_f64 ch (S754_finite s m e)) s d k e' /\ best_decimal s d (e' - Z.of_nat k) (S754_finite s m e) /\
  marked (debug_f64 ch (S754_finite s m e)) /\ (-65536 < e' < 65536)%Z.
Proof.
  intros ch s m e H. cbn [debug_f64]. destruct (decimal_of_best m e H) as (d & j & E & Hb & Hd). rewrite E.
  assert (H0 : d <> 0%N) by (intros ->; now apply Hd).
  assert (Hs : sign_text (if s then lit "-" else []) s) by (destruct s; constructor).
  destruct (exponent ch _).
  - destruct (write_exponent_text d j H0) as (k & e' & mt & ex & Et & Hm & He & Hj & Hi & Hr). exists d, k, e'.
    split; [exists (if s then lit "-" else []), mt, ex; rewrite Et; auto|]. rewrite <- Hj.
    split; [now apply signed_best|]. split; [right; apply in_or_app; now right|].
    apply decimal_of_ok in E; [|exact H].
    destruct (Z_lt_le_dec e' 400) as [L|L]; [|rewrite (decimal_huge _ _ _ (N.of_nat k)) in E by lia; discriminate].
    destruct (Z_lt_le_dec (-402) e') as [L'|L']; [lia|]. rewrite (decimal_small _ _ _ (Z.of_nat (S k))) in E; try lia. discriminate.
  - destruct (write_pointed_text d j Hd) as (m' & k & i & Hm & -> & -> & Hi). exists (d * 10 ^ i)%N, k, 0%Z.
    split; [exists (if s then lit "-" else []), (write_pointed d (- Z.of_nat k + Z.of_N i)), []; rewrite app_nil_r; auto using exponent_none|].
    split; [|split; [left; apply in_or_app; now right|lia]].
    apply signed_best. apply best_shift. exact Hb.
Qed.

Theorem debug_f64_read : forall ch x, is_f64 x -> parse_f64 (debug_f64 ch x) = Some x.
Proof.
  intros ch [s|s| |s m e] H; try (destruct s; reflexivity); [reflexivity|].
  destruct (debug_f64_text ch s m e H) as (d & k & e' & Ht & (Hn & _) & _ & Hr).
  rewrite (decimal_text_parsed _ _ _ _ _ Ht) by auto. f_equal. eapply nearest_unique; [apply decimal_nearest|exact Hn].
Qed.
