(** The fan of a polygon that may have corners on a line. *)
From Coq Require Import Reals Lra Lia.
From Verif Require Import ObjModel ObjView SurfaceSpec AreaSpec TileSpec LexerProofs ObjTop ObjMeaning ObjFacts ObjMore SurfaceProofs AreaProofs TileProofs.
Local Open Scope list_scope.
Local Open Scope R_scope.

Notation between t p q := (vadd (scale (1 - t) p) (scale t q)).

Lemma in_hull_mono : forall l l' p, incl l l' -> in_hull l p -> in_hull l' p.
Proof. intros l l' p I H. induction H; [constructor; auto|now apply hull_between]. Qed.

(** Affine functions: what holds of the corners holds of all points. *)
Lemma turn_between : forall n a b p q t, turn n a b (between t p q) = (1 - t) * turn n a b p + t * turn n a b q.
Proof. intros. flatten. ring. Qed.

Lemma hull_turn : forall n a b l p, (forall q, In q l -> 0 <= turn n a b q) -> in_hull l p -> 0 <= turn n a b p.
Proof.
  intros n a b l p H I. induction I as [p I|t p q T Ip IHp Iq IHq]; [auto|]. rewrite turn_between.
  assert (0 <= (1 - t) * turn n a b p) by (apply Rmult_le_pos; lra).
  assert (0 <= t * turn n a b q) by (apply Rmult_le_pos; lra). lra.
Qed.

Lemma hull_turn_0 : forall n a b l p, (forall q, In q l -> turn n a b q = 0) -> in_hull l p -> turn n a b p = 0.
Proof.
  intros n a b l p H I. induction I as [p I|t p q T Ip IHp Iq IHq]; [auto|]. rewrite turn_between, IHp, IHq. ring.
Qed.

Lemma hull_flat : forall n a l p, (forall q, In q l -> dot n (vsub q a) = 0) -> in_hull l p -> dot n (vsub p a) = 0.
Proof.
  intros n a l p H I. induction I as [p I|t p q T Ip IHp Iq IHq]; [auto|].
  replace (dot n (vsub (between t p q) a)) with ((1 - t) * dot n (vsub p a) + t * dot n (vsub q a)) by (flatten; ring).
  rewrite IHp, IHq. ring.
Qed.

(** A triangle is the hull of its corners. *)
Lemma triangle_hull : forall l a b c p, in_hull l a -> in_hull l b -> in_hull l c -> in_triangle (a, b, c) p -> in_hull l p.
Proof.
  intros l a b c p Ha Hb Hc (x & y & z & Hx & Hy & Hz & E & ->).
  destruct (Req_dec (y + z) 0) as [K|K].
  - assert (y = 0) by lra. assert (z = 0) by lra. assert (x = 1) by lra. subst.
    replace (vadd (scale 1 a) (vadd (scale 0 b) (scale 0 c))) with a; [exact Ha|].
    clear. flatten. apply vec_eq; ring.
  - assert (P : 0 < y + z) by lra.
    replace (vadd (scale x a) (vadd (scale y b) (scale z c))) with (between (y + z) a (between (z / (y + z)) b c)).
    + apply hull_between; [lra|exact Ha|]. apply hull_between; [|exact Hb|exact Hc].
      split; [apply Rmult_le_pos; [lra|apply Rlt_le, Rinv_0_lt_compat, P]|].
      apply (Rmult_le_reg_r (y + z)); [exact P|]. unfold Rdiv. rewrite Rmult_assoc, Rinv_l, Rmult_1_r, Rmult_1_l by exact K. lra.
    + replace x with (1 - y - z) by lra. clear - K. flatten. apply vec_eq; field; exact K.
Qed.

Lemma in_triangle_a : forall a b c, in_triangle (a, b, c) a.
Proof. intros. exists 1, 0, 0. repeat split; try lra. flatten. apply vec_eq; ring. Qed.
Lemma in_triangle_b : forall a b c, in_triangle (a, b, c) b.
Proof. intros. exists 0, 1, 0. repeat split; try lra. flatten. apply vec_eq; ring. Qed.
Lemma in_triangle_c : forall a b c, in_triangle (a, b, c) c.
Proof. intros. exists 0, 0, 1. repeat split; try lra. flatten. apply vec_eq; ring. Qed.

Lemma quotient : forall x y, 0 <= x -> x <= y -> 0 < y -> 0 <= x / y <= 1.
Proof.
  intros x y Hx Hxy Hy. split.
  - apply Rmult_le_pos; [exact Hx|]. apply Rlt_le, Rinv_0_lt_compat, Hy.
  - apply (Rmult_le_reg_r y); [exact Hy|]. unfold Rdiv. rewrite Rmult_assoc, Rinv_l by lra. lra.
Qed.

Lemma triangle_between : forall a b c t p q, 0 <= t <= 1 -> in_triangle (a, b, c) p -> in_triangle (a, b, c) q ->
  in_triangle (a, b, c) (between t p q).
Proof.
  intros a b c t p q T (x & y & z & Hx & Hy & Hz & E & ->) (x' & y' & z' & Hx' & Hy' & Hz' & E' & ->).
  assert (P : forall u v, 0 <= u -> 0 <= v -> 0 <= (1 - t) * u + t * v).
  { intros u v Hu Hv. apply Rplus_le_le_0_compat; apply Rmult_le_pos; lra. }
  exists ((1 - t) * x + t * x'), ((1 - t) * y + t * y'), ((1 - t) * z + t * z').
  split; [auto|split; [auto|split; [auto|]]]. split.
  - transitivity ((1 - t) * (x + y + z) + t * (x' + y' + z')); [ring|]. rewrite E, E'. ring.
  - clear. flatten. apply vec_eq; ring.
Qed.

Lemma hull_triangle : forall a b c p, in_hull [a; b; c] p -> in_triangle (a, b, c) p.
Proof.
  intros a b c p H. induction H as [p I|t p q T Hp IHp Hq IHq]; [|now apply triangle_between].
  destruct I as [<-|[<-|[<-|[]]]]; [apply in_triangle_a|apply in_triangle_b|apply in_triangle_c].
Qed.

(** One more corner. *)
Lemma hull_snoc : forall l z p, in_hull (l ++ [z]) p -> p = z \/ exists t y, 0 <= t <= 1 /\ in_hull l y /\ p = between t y z.
Proof.
  intros l z p H. induction H as [p I|t p q T Hp IHp Hq IHq].
  - apply in_app_iff in I. destruct I as [I|[<-|[]]]; [|now left]. right. exists 0, p. split; [lra|]. split; [now constructor|].
    clear. flatten. apply vec_eq; ring.
  - destruct IHp as [->|(s & y & S & Hy & ->)], IHq as [->|(s' & y' & S' & Hy' & ->)].
    + left. clear. flatten. apply vec_eq; ring.
    + right. exists (1 - t * (1 - s')), y'. split; [|split; [exact Hy'|clear; flatten; apply vec_eq; ring]].
      assert (0 <= t * (1 - s')) by (apply Rmult_le_pos; lra).
      assert (t * (1 - s') <= 1 * 1) by (apply Rmult_le_compat; lra). lra.
    + right. exists (1 - (1 - t) * (1 - s)), y. split; [|split; [exact Hy|clear; flatten; apply vec_eq; ring]].
      assert (0 <= (1 - t) * (1 - s)) by (apply Rmult_le_pos; lra).
      assert ((1 - t) * (1 - s) <= 1 * 1) by (apply Rmult_le_compat; lra). lra.
    + set (u := (1 - t) * (1 - s)). set (v := t * (1 - s')).
      assert (U : 0 <= u) by (apply Rmult_le_pos; lra). assert (V : 0 <= v) by (apply Rmult_le_pos; lra).
      assert (B : u + v <= 1).
      { assert (0 <= (1 - t) * s) by (apply Rmult_le_pos; lra). assert (0 <= t * s') by (apply Rmult_le_pos; lra). unfold u, v. lra. }
      destruct (Req_dec (u + v) 0) as [K|K].
      * left. assert (u = 0) by lra. assert (v = 0) by lra.
        transitivity (vadd (vadd (scale u y) (scale v y')) (scale (1 - u - v) z)).
        { unfold u, v. clear. flatten. apply vec_eq; ring. }
        rewrite H, H0. clear. flatten. apply vec_eq; ring.
      * right. exists (1 - (u + v)), (between (v / (u + v)) y y'). split; [lra|]. split.
        { apply hull_between; auto. apply quotient; lra. }
        transitivity (vadd (vadd (scale u y) (scale v y')) (scale (1 - u - v) z)).
        { unfold u, v. clear. flatten. apply vec_eq; ring. }
        clear - K. clearbody u v. flatten. apply vec_eq; field; exact K.
Qed.

(** Points on a line. *)
Lemma square_0 : forall x y z : R, x * x + y * y + z * z = 0 -> x = 0 /\ y = 0 /\ z = 0.
Proof. intros x y z H. pose proof (Rle_0_sqr x). pose proof (Rle_0_sqr y). pose proof (Rle_0_sqr z). unfold Rsqr in *.
  repeat split; apply Rsqr_0_uniq; unfold Rsqr; lra. Qed.

Lemma dot_0 : forall u, dot u u = 0 -> u = vzero.
Proof. intros [[x y] z] H. cbn [dot] in H. destruct (square_0 x y z H) as (-> & -> & ->). reflexivity. Qed.

Lemma gram : forall n u w, dot n u = 0 -> dot n w = 0 -> dot u w = 0 -> dot n (cross u w) = 0 ->
  dot n n * (dot u u * dot w w) = 0.
Proof.
  intros n u w H1 H2 H3 H4.
  transitivity (dot n (cross u w) * dot n (cross u w) + dot n n * (dot u w * dot u w) + dot u u * (dot n w * dot n w)
    + dot w w * (dot n u * dot n u) - 2 * (dot n u * (dot u w * dot n w))).
  - clear. destruct n as [[? ?] ?], u as [[? ?] ?], w as [[? ?] ?]. cbn [dot cross]. ring.
  - rewrite H1, H2, H3, H4. ring.
Qed.

Lemma parallel : forall n a x y, n <> vzero -> dot n (vsub x a) = 0 -> dot n (vsub y a) = 0 -> turn n a x y = 0 -> x <> a ->
  exists k, y = between k a x.
Proof.
  intros n a x y Hn Hx Hy T Ne.
  set (u := vsub x a) in *. set (v := vsub y a) in *. unfold turn in T. fold u v in T.
  assert (Nu : dot u u <> 0).
  { intros K. apply dot_0 in K. apply Ne. unfold u in K. clear - K. flatten. injection K as ? ? ?. apply vec_eq; lra. }
  assert (Nn : dot n n <> 0) by (intros K; apply Hn; now apply dot_0).
  set (k := dot u v / dot u u). set (w := vsub v (scale k u)).
  assert (W1 : dot n w = 0).
  { transitivity (dot n v - k * dot n u); [|rewrite Hx, Hy; ring]. unfold w. clear. flatten. ring. }
  assert (W2 : dot u w = 0).
  { transitivity (dot u v - k * dot u u); [unfold w; clear; flatten; ring|]. unfold k. field. exact Nu. }
  assert (W3 : dot n (cross u w) = 0). { rewrite <- T. unfold w. clear. flatten. ring. }
  pose proof (gram n u w Hx W1 W2 W3) as G.
  apply Rmult_integral in G. destruct G as [G|G]; [contradiction|]. apply Rmult_integral in G. destruct G as [G|G]; [contradiction|].
  apply dot_0 in G. exists k. unfold w, u, v in G. clearbody k. clear - G. flatten. injection G as ? ? ?. apply vec_eq; lra.
Qed.

(** All corners on a line through [a]. *)
Lemma line_far : forall a w l p, (forall q, In q l -> exists k, q = vadd a (scale k w)) -> in_hull (a :: l) p ->
  exists k, p = vadd a (scale k w) /\
    (k = 0 \/ (0 < k /\ exists k', k <= k' /\ In (vadd a (scale k' w)) l) \/ (k < 0 /\ exists k', k' <= k /\ In (vadd a (scale k' w)) l)).
Proof.
  intros a w l p H I.
  (* the farthest corners on both sides *)
  assert (E : exists k, p = vadd a (scale k w) /\
    (k <= 0 \/ exists k', k <= k' /\ In (vadd a (scale k' w)) l) /\ (0 <= k \/ exists k', k' <= k /\ In (vadd a (scale k' w)) l)).
  { induction I as [p I|t p q T Ip IHp Iq IHq].
    - destruct I as [<-|I].
      + exists 0. split; [clear; flatten; apply vec_eq; ring|]. split; left; lra.
      + destruct (H p I) as [k ->]. exists k. split; [reflexivity|]. split; right; exists k; split; auto; lra.
    - destruct IHp as (k & -> & U & D), IHq as (k' & -> & U' & D').
      exists ((1 - t) * k + t * k'). split; [clear; flatten; apply vec_eq; ring|].
      set (s := (1 - t) * k + t * k').
      assert (A : s <= k \/ s <= k').
      { destruct (Rle_or_lt k k'); [right|left]; unfold s.
        - assert ((1 - t) * k <= (1 - t) * k') by (apply Rmult_le_compat_l; lra). lra.
        - assert (t * k' <= t * k) by (apply Rmult_le_compat_l; lra). lra. }
      assert (B : k <= s \/ k' <= s).
      { destruct (Rle_or_lt k k'); [left|right]; unfold s.
        - assert (t * k <= t * k') by (apply Rmult_le_compat_l; lra). lra.
        - assert ((1 - t) * k' <= (1 - t) * k) by (apply Rmult_le_compat_l; lra). lra. }
      split.
      + destruct A as [A|A]; [destruct U as [V|(m & V & Im)]|destruct U' as [V|(m & V & Im)]];
          first [left; lra | right; exists m; split; [lra|exact Im]].
      + destruct B as [B|B]; [destruct D as [V|(m & V & Im)]|destruct D' as [V|(m & V & Im)]];
          first [left; lra | right; exists m; split; [lra|exact Im]]. }
  destruct E as (k & -> & U & D). exists k. split; [reflexivity|].
  destruct (Rtotal_order k 0) as [L|[->|L]]; [|now left|].
  - right; right. split; [lra|]. destruct D as [D|D]; [lra|exact D].
  - right; left. split; [lra|]. destruct U as [U|U]; [lra|exact U].
Qed.

Lemma on_segment : forall a w k k', 0 <= k <= k' \/ k' <= k <= 0 -> k' <> 0 ->
  exists t, 0 <= t <= 1 /\ vadd a (scale k w) = between t a (vadd a (scale k' w)).
Proof.
  intros a w k k' H N. exists (k / k'). split.
  - destruct H as [H|H]; [apply quotient; lra|]. replace (k / k') with (- k / - k') by (field; exact N). apply quotient; lra.
  - clear - N. flatten. apply vec_eq; field; exact N.
Qed.

Lemma in_some_pair : forall (l : list vec) q, (2 <= length l)%nat -> In q l -> exists x y, In (x, y) (pairs l) /\ (q = x \/ q = y).
Proof.
  induction l as [|b l IH]; intros q L I; [destruct I|]. destruct l as [|c l]; [cbn in L; lia|].
  change (pairs (b :: c :: l)) with ((b, c) :: pairs (c :: l)). destruct I as [<-|I].
  - exists b, c. split; [now left|auto].
  - destruct l as [|d l].
    + destruct I as [<-|[]]. exists b, c. split; [now left|auto].
    + destruct (IH q) as (x & y & K & E); [cbn; lia|exact I|]. exists x, y. split; [now right|exact E].
Qed.

Lemma line_covers : forall a w l p, (2 <= length l)%nat -> (forall q, In q l -> exists k, q = vadd a (scale k w)) -> in_hull (a :: l) p ->
  exists x y, In (x, y) (pairs l) /\ in_triangle (a, x, y) p.
Proof.
  intros a w l p L H I. destruct (line_far _ _ _ _ H I) as (k & -> & C).
  assert (G : forall k', (0 <= k <= k' \/ k' <= k <= 0) -> k' <> 0 -> In (vadd a (scale k' w)) l ->
    exists x y, In (x, y) (pairs l) /\ in_triangle (a, x, y) (vadd a (scale k w))).
  { intros k' B N Im. destruct (on_segment a w k k' B N) as (t & T & ->). destruct (in_some_pair l _ L Im) as (x & y & K & E).
    exists x, y. split; [exact K|]. apply triangle_between; [exact T|apply in_triangle_a|].
    destruct E as [->| ->]; [apply in_triangle_b|apply in_triangle_c]. }
  destruct C as [->|[(P & k' & B & Im)|(P & k' & B & Im)]].
  - destruct l as [|b [|c l]]; try (cbn in L; lia). exists b, c. split; [now left|].
    replace (vadd a (scale 0 w)) with a by (clear; flatten; apply vec_eq; ring). apply in_triangle_a.
  - apply (G k'); auto; lra.
  - apply (G k'); auto; lra.
Qed.

(** The corners of [l] and [a] are on a line, or not. *)
Lemma on_line_dec : forall n a l, n <> vzero -> flat n (a :: l) ->
  (exists w, forall q, In q l -> exists k, q = vadd a (scale k w)) \/
  (exists x y, In x l /\ In y l /\ turn n a x y <> 0).
Proof.
  intros n a l Hn F.
  assert (Dec : forall q r : vec, q = r \/ q <> r).
  { intros [[a1 a2] a3] [[b1 b2] b3]. destruct (Req_dec a1 b1), (Req_dec a2 b2), (Req_dec a3 b3); subst; auto;
      right; intros K; injection K; intros; contradiction. }
  assert (A : (forall q, In q l -> q = a) \/ exists x, In x l /\ x <> a).
  { clear F. induction l as [|b l IH]; [left; intros q []|]. destruct (Dec b a) as [->|N].
    - destruct IH as [IH|(x & Ix & Nx)]; [left; intros q [<-|I]; auto|right; exists x; split; [now right|exact Nx]].
    - right. exists b. split; [now left|exact N]. }
  destruct A as [A|(x & Ix & Nx)].
  - left. exists vzero. intros q I. exists 0. rewrite (A q I). clear. flatten. apply vec_eq; ring.
  - assert (B : (forall y, In y l -> turn n a x y = 0) \/ exists y, In y l /\ turn n a x y <> 0).
    { clear - l. induction l as [|b l IH]; [left; intros y []|]. destruct (Req_dec (turn n a x b) 0) as [E|N].
      - destruct IH as [IH|(y & Iy & Ny)]; [left; intros y [<-|I]; auto|right; exists y; split; [now right|exact Ny]].
      - right. exists b. split; [now left|exact N]. }
    destruct B as [B|(y & Iy & Ny)]; [|right; exists x, y; auto].
    left. exists (vsub x a). intros y Iy. destruct (parallel n a x y Hn) as [k ->]; auto.
    + apply F; [now left|now right].
    + apply F; [now left|now right].
    + exists k. clear. flatten. apply vec_eq; ring.
Qed.

Lemma flat_incl : forall n l l', incl l l' -> flat n l' -> flat n l.
Proof. intros n l l' I F p q Hp Hq. apply F; auto. Qed.

Lemma nth_snoc : forall A (l : list A) z, nth_error (l ++ [z]) (length l) = Some z.
Proof. intros. rewrite nth_error_app2, Nat.sub_diag; [reflexivity|lia]. Qed.

Lemma weak_front : forall n l l', weakly_convex n (l ++ l') -> weakly_convex n l.
Proof.
  intros n l l' H i j k a b c L Ha Hb Hc.
  assert (E : forall m x, nth_error l m = Some x -> nth_error (l ++ l') m = Some x).
  { intros m x Hm. rewrite nth_error_app1; [exact Hm|]. apply nth_error_Some. congruence. }
  apply (H i j k); auto.
Qed.

(** What the last corner does: the hull grows by one triangle. *)
Lemma hull_grows : forall n a m y z p, n <> vzero -> flat n (a :: m ++ [y; z]) -> weakly_convex n (a :: m ++ [y; z]) ->
  (exists q r, In q (m ++ [y; z]) /\ In r (m ++ [y; z]) /\ turn n a q r <> 0) ->
  in_hull (a :: m ++ [y; z]) p -> in_hull (a :: m ++ [y]) p \/ in_triangle (a, y, z) p.
Proof.
  intros n a m y z p Hn F W Out I.
  assert (Nm : forall q, In q m -> exists i, (S i < length (a :: m))%nat /\ nth_error (a :: m ++ [y; z]) (S i) = Some q).
  { intros q Iq. apply In_nth_error in Iq. destruct Iq as [i Hi]. exists i.
    assert (Li : (i < length m)%nat) by (apply nth_error_Some; congruence). split; [cbn; lia|]. change (nth_error (m ++ [y; z]) i = Some q).
    rewrite nth_error_app1; [exact Hi|exact Li]. }
  assert (Ny : nth_error (a :: m ++ [y; z]) (length (a :: m)) = Some y).
  { change (nth_error (m ++ [y; z]) (length m) = Some y). rewrite nth_error_app2, Nat.sub_diag; [reflexivity|lia]. }
  assert (Nz : nth_error (a :: m ++ [y; z]) (S (length (a :: m))) = Some z).
  { change (nth_error (m ++ [y; z]) (S (length m)) = Some z). rewrite nth_error_app2; [|lia]. replace (S (length m) - length m)%nat with 1%nat by lia. reflexivity. }
  assert (D : 0 <= turn n a y z) by (apply (W 0%nat (length (a :: m)) (S (length (a :: m)))); auto; cbn; lia).
  assert (T1 : forall q, In q m -> 0 <= turn n a q y).
  { intros q Iq. destruct (Nm q Iq) as (i & Li & Hi). apply (W 0%nat (S i) (length (a :: m))); auto; lia. }
  assert (T2 : forall q, In q m -> 0 <= turn n a q z).
  { intros q Iq. destruct (Nm q Iq) as (i & Li & Hi). apply (W 0%nat (S i) (S (length (a :: m)))); auto; lia. }
  assert (T3 : forall q, In q m -> 0 <= turn n q y z).
  { intros q Iq. destruct (Nm q Iq) as (i & Li & Hi). apply (W (S i) (length (a :: m)) (S (length (a :: m)))); auto; lia. }
  assert (Fa : forall q, In q (a :: m ++ [y; z]) -> dot n (vsub q a) = 0) by (intros q Iq; apply F; [now left|exact Iq]).
  assert (Iy : In y (a :: m ++ [y; z])) by (right; apply in_app_iff; right; now left).
  assert (Iz : In z (a :: m ++ [y; z])) by (right; apply in_app_iff; right; right; now left).
  assert (Im : forall q, In q m -> In q (a :: m ++ [y; z])) by (intros; right; apply in_app_iff; now left).
  (* every point is on the left of y -> z and of z -> a *)
  assert (L1 : 0 <= turn n y z p).
  { apply (hull_turn n y z (a :: m ++ [y; z])); [|exact I]. intros q [<-|Iq]; [rewrite <- turn_rotate; exact D|].
    apply in_app_iff in Iq. destruct Iq as [Iq|[<-|[<-|[]]]]; [rewrite <- turn_rotate; auto|rewrite turn_first; lra|rewrite turn_second; lra]. }
  assert (L2 : 0 <= turn n z a p).
  { apply (hull_turn n z a (a :: m ++ [y; z])); [|exact I]. intros q [<-|Iq]; [rewrite turn_second; lra|].
    apply in_app_iff in Iq. destruct Iq as [Iq|[<-|[<-|[]]]]; [rewrite turn_rotate; auto|rewrite turn_rotate; auto|rewrite turn_first; lra]. }
  assert (Fp : dot n (vsub p a) = 0) by (apply (hull_flat n a (a :: m ++ [y; z])); auto).
  assert (I' : in_hull ((a :: m ++ [y]) ++ [z]) p) by (cbn [app]; rewrite <- app_assoc; exact I).
  destruct (Rle_lt_or_eq_dec _ _ D) as [Dp|D0].
  - destruct (Rle_or_lt 0 (turn n a y p)) as [P|P].
    { right. apply (in_triangle_turns n); auto. }
    left. apply hull_snoc in I'. destruct I' as [->|(t & q & T & Hq & ->)]; [lra|].
    assert (Q1 : 0 <= turn n y a q).
    { apply (hull_turn n y a (a :: m ++ [y])); [|exact Hq]. intros r [<-|Ir]; [rewrite turn_second; lra|].
      apply in_app_iff in Ir. destruct Ir as [Ir|[<-|[]]]; [rewrite turn_rotate; auto|rewrite turn_first; lra]. }
    assert (Q2 : 0 <= turn n z a q).
    { apply (hull_turn n z a (a :: m ++ [y])); [|exact Hq]. intros r [<-|Ir]; [rewrite turn_second; lra|].
      apply in_app_iff in Ir. destruct Ir as [Ir|[<-|[]]]; rewrite turn_rotate; auto. }
    assert (Q3 : 0 <= turn n y z q).
    { apply (hull_turn n y z (a :: m ++ [y])); [|exact Hq]. intros r [<-|Ir]; [rewrite <- turn_rotate; exact D|].
      apply in_app_iff in Ir. destruct Ir as [Ir|[<-|[]]]; [rewrite <- turn_rotate; auto|rewrite turn_first; lra]. }
    assert (Q4 : 0 < turn n a q y).
    { rewrite turn_between, turn_swap in P. assert (0 <= t * turn n a y z) by (apply Rmult_le_pos; lra).
      destruct (Rle_lt_or_eq_dec 0 (turn n a q y)) as [K|K]; [|exact K|]; [rewrite turn_rotate, turn_rotate; exact Q1|].
      rewrite <- K in P. lra. }
    apply (triangle_hull _ a q y); [constructor; now left|exact Hq|constructor; right; apply in_app_iff; right; now left|].
    assert (Fq : dot n (vsub q a) = 0).
    { apply (hull_flat n a (a :: m ++ [y])); [|exact Hq]. intros r Ir. apply Fa. destruct Ir as [<-|Ir]; [now left|].
      right. apply in_app_iff in Ir. apply in_app_iff. destruct Ir as [Ir|[<-|[]]]; [now left|right; now left]. }
    apply (in_triangle_turns n); auto.
    + rewrite turn_between, turn_second. assert (0 <= t * turn n a q z); [|lra]. apply Rmult_le_pos; [lra|].
      rewrite <- turn_rotate. exact Q2.
    + rewrite turn_between, turn_first. assert (0 <= t * turn n q y z); [|lra]. apply Rmult_le_pos; [lra|].
      rewrite turn_rotate. exact Q3.
    + rewrite turn_back. lra.
  - left. symmetry in D0.
    assert (Z : in_hull (a :: m ++ [y]) z).
    { assert (Dec : y = a \/ y <> a).
      { clear. destruct y as [[a1 a2] a3], a as [[b1 b2] b3]. destruct (Req_dec a1 b1), (Req_dec a2 b2), (Req_dec a3 b3); subst; auto;
          right; intros K; injection K; intros; contradiction. }
      destruct Dec as [->|Ne].
      - (* all turns with z are 0 *)
        assert (T0 : forall q, In q m -> turn n a q z = 0).
        { intros q Iq. pose proof (T2 q Iq). pose proof (T3 q Iq) as K. rewrite turn_back in K. lra. }
        assert (Dec : z = a \/ z <> a).
        { clear. destruct z as [[a1 a2] a3], a as [[b1 b2] b3]. destruct (Req_dec a1 b1), (Req_dec a2 b2), (Req_dec a3 b3); subst; auto;
            right; intros K; injection K; intros; contradiction. }
        destruct Dec as [->|Nz']; [constructor; now left|]. exfalso.
        assert (Par : forall q, In q (m ++ [a; z]) -> exists k, q = between k a z).
        { intros q Iq. apply (parallel n); auto; [apply Fa; now right|]. apply in_app_iff in Iq.
          destruct Iq as [Iq|[<-|[<-|[]]]]; [rewrite turn_swap, T0 by exact Iq; lra|apply turn_first|apply turn_second]. }
        destruct Out as (q & r & Iq & Ir & N). destruct (Par q Iq) as [k ->], (Par r Ir) as [k' ->]. apply N. clear. flatten. ring.
      - destruct (parallel n a y z) as [k E]; auto.
        assert (Some' : (forall q, In q m -> turn n a q y = 0) \/ exists q, In q m /\ turn n a q y <> 0).
        { clear - m. induction m as [|b m IH]; [left; intros q []|]. destruct (Req_dec (turn n a b y) 0) as [K|K].
          - destruct IH as [IH|(q & Iq & Nq)]; [left; intros q [<-|Iq]; auto|right; exists q; split; [now right|exact Nq]].
          - right. exists b. split; [now left|exact K]. }
        destruct Some' as [All|(q & Iq & Nq)].
        + exfalso. assert (Par : forall q, In q (m ++ [y; z]) -> exists k, q = between k a y).
          { intros q Iq. apply (parallel n); auto; [apply Fa; now right|]. apply in_app_iff in Iq.
            destruct Iq as [Iq|[<-|[<-|[]]]]; [rewrite turn_swap, All by exact Iq; lra|apply turn_second|exact D0]. }
          destruct Out as (q & r & Iq & Ir & N). destruct (Par q Iq) as [c ->], (Par r Ir) as [c' ->]. apply N. clear. flatten. ring.
        + pose proof (T1 q Iq) as H1. pose proof (T2 q Iq) as H2. pose proof (T3 q Iq) as H3. rewrite E in H2, H3.
          replace (turn n a q (between k a y)) with (k * turn n a q y) in H2 by (clear; flatten; ring).
          replace (turn n q y (between k a y)) with ((1 - k) * turn n a q y) in H3 by (clear; flatten; ring).
          assert (P : 0 < turn n a q y) by lra.
          assert (K1 : 0 <= k) by (apply (Rmult_le_reg_r (turn n a q y)); lra).
          assert (K2 : 0 <= 1 - k) by (apply (Rmult_le_reg_r (turn n a q y)); lra).
          rewrite E. apply hull_between; [lra|constructor; now left|constructor; right; apply in_app_iff; right; now left]. }
    apply hull_snoc in I'. destruct I' as [->|(t & q & T & Hq & ->)]; [exact Z|]. now apply hull_between.
Qed.

Section Weak.
Context (n a : vec) (Hn : n <> vzero).

Lemma pairs_snoc : forall (l : list vec) y z, pairs (l ++ [y; z]) = pairs (l ++ [y]) ++ [(y, z)].
Proof.
  induction l as [|b l IH]; intros y z; [reflexivity|]. destruct l as [|c l]; [reflexivity|].
  change (pairs ((b :: c :: l) ++ [y; z])) with ((b, c) :: pairs ((c :: l) ++ [y; z])).
  change (pairs ((b :: c :: l) ++ [y])) with ((b, c) :: pairs ((c :: l) ++ [y])). rewrite IH. reflexivity.
Qed.

Lemma weak_covers : forall k l p, length l = S (S k) -> flat n (a :: l) -> weakly_convex n (a :: l) -> in_hull (a :: l) p ->
  exists x y, In (x, y) (pairs l) /\ in_triangle (a, x, y) p.
Proof.
  induction k as [|k IH]; intros l p L F W I.
  - destruct l as [|x [|y [|]]]; try discriminate L. exists x, y. split; [now left|]. now apply hull_triangle.
  - destruct (on_line_dec n a l Hn F) as [[w Hw]|Out]; [apply (line_covers a w); auto; lia|].
    destruct (exists_last (l := l)) as (l' & z & E); [intros ->; discriminate L|].
    assert (L' : length l' = S (S k)) by (rewrite E, app_length in L; cbn in L; lia).
    destruct (exists_last (l := l')) as (m & y & E'); [intros ->; discriminate L'|].
    assert (El : l = m ++ [y; z]) by (rewrite E, E', <- app_assoc; reflexivity).
    rewrite El in *. clear E.
    destruct (hull_grows n a m y z p Hn F W Out I) as [G|G].
    + rewrite E' in L'. destruct (IH (m ++ [y]) p) as (u & v & Iu & T); auto.
      * eapply flat_incl; [|exact F]. intros q [<-|Iq]; [now left|]. right. apply in_app_iff in Iq. apply in_app_iff.
        destruct Iq as [Iq|[<-|[]]]; [now left|right; now left].
      * apply (weak_front n (a :: m ++ [y]) [z]). cbn [app]. rewrite <- app_assoc. exact W.
      * exists u, v. split; [|exact T]. rewrite pairs_snoc. apply in_app_iff. now left.
    + exists y, z. split; [|exact G]. rewrite pairs_snoc. apply in_app_iff. right. now left.
Qed.

Context (l : list vec) (Hflat : flat n (a :: l)) (Hconvex : weakly_convex n (a :: l)) (Hlen : (2 <= length l)%nat).
Notation fan := (map (fun '(x, y) => (a, x, y)) (pairs l)).

Lemma weak_apart : forall i j b c d e f g p, (i < j)%nat -> nth_error fan i = Some (b, c, d) -> nth_error fan j = Some (e, f, g) ->
  0 < turn n b c d \/ 0 < turn n e f g -> inside_triangle (b, c, d) p -> ~ inside_triangle (e, f, g) p.
Proof.
  intros i j b0 c0 d0 e0 f0 g0 p L Ht Hu Or It Iu. apply fan_at in Ht, Hu. destruct Ht as (b & c & E1 & Hb & Hc), Hu as (d & e & E2 & Hd & He).
  injection E1 as -> -> ->. injection E2 as -> -> ->.
  destruct It as (x & y & z & Hx & Hy & Hz & E & Ep), Iu as (x' & y' & z' & Hx' & Hy' & Hz' & E' & Ep').
  assert (W : forall i j p q, (i < j)%nat -> nth_error (a :: l) (S i) = Some p -> nth_error (a :: l) (S j) = Some q -> 0 <= turn n a p q).
  { intros i' j' p' q' L' Hp Hq. apply (Hconvex 0%nat (S i') (S j')); auto. lia. }
  assert (W' : forall i j p q, (i <= j)%nat -> nth_error (a :: l) (S i) = Some p -> nth_error (a :: l) (S j) = Some q -> 0 <= turn n a p q).
  { intros i' j' p' q' L' Hp Hq. destruct (Nat.eq_dec i' j') as [->|N]; [rewrite Hp in Hq; injection Hq as <-; rewrite turn_second; lra|].
    apply (W i' j'); auto. lia. }
  destruct Or as [Or|Or].
  - assert (A : turn n a c p < 0).
    { rewrite Ep, turn_affine by exact E. rewrite turn_first, turn_second.
      assert (0 < y * turn n a b c) by now apply Rmult_lt_0_compat. rewrite (turn_swap n a c b). lra. }
    assert (B : 0 <= turn n a c p).
    { rewrite Ep', turn_affine by exact E'. rewrite turn_first.
      assert (0 <= turn n a c d) by (apply (W' (S i) j); auto). assert (0 <= turn n a c e) by (apply (W' (S i) (S j)); auto; lia).
      assert (0 <= y' * turn n a c d) by (apply Rmult_le_pos; lra). assert (0 <= z' * turn n a c e) by (apply Rmult_le_pos; lra). lra. }
    lra.
  - assert (A : turn n a d p <= 0).
    { rewrite Ep, turn_affine by exact E. rewrite turn_first, (turn_swap n a d b), (turn_swap n a d c).
      assert (0 <= turn n a b d) by (apply (W' i j); auto; lia). assert (0 <= turn n a c d) by (apply (W' (S i) j); auto).
      assert (0 <= y * turn n a b d) by (apply Rmult_le_pos; lra). assert (0 <= z * turn n a c d) by (apply Rmult_le_pos; lra). lra. }
    assert (B : 0 < turn n a d p).
    { rewrite Ep', turn_affine by exact E'. rewrite turn_first, turn_second.
      assert (0 < z' * turn n a d e) by now apply Rmult_lt_0_compat. lra. }
    lra.
Qed.

Lemma weak_tiles : weakly_tiles n (a :: l) fan.
Proof.
  split; [|split].
  - intros p. split.
    + intros I. destruct (weak_covers (length l - 2) l p) as (x & y & Ip & T); auto; [lia|]. exists (a, x, y). split; [|exact T].
      apply in_map_iff. exists (x, y). auto.
    + intros ([[u v] w] & Ht & Hp). apply in_map_iff in Ht. destruct Ht as ([v' w'] & K & I). injection K as <- <- <-.
      apply (triangle_hull _ a v' w'); [constructor; now left| | |exact Hp]; constructor; right; unfold pairs in I.
      * now apply in_combine_l in I.
      * apply in_combine_r in I. destruct l; [destruct I|now right].
  - exact weak_apart.
  - intros x y z H. apply In_nth_error in H. destruct H as [i H]. apply fan_at in H. destruct H as (u & v & E & Hu & Hv).
    injection E as -> -> ->. apply (Hconvex 0%nat (S i) (S (S i))); auto. lia.
Qed.
End Weak.

(** The two notions of polygon agree where both apply. *)
Lemma polygon_hull : forall n l p, (3 <= length l)%nat -> flat n l -> convex n l -> in_polygon n l p <-> in_hull l p.
Proof.
  intros n [|a l] p L F C; [cbn in L; lia|]. cbn [length] in L.
  assert (N : n <> vzero).
  { intros ->. destruct l as [|b [|c l]]; cbn [length] in L; try lia.
    assert (T : 0 < turn vzero a b c) by (apply (C 0%nat 1%nat 2%nat); [lia|reflexivity..]).
    unfold turn, vzero in T. destruct (cross (vsub b a) (vsub c a)) as [[x y] z]. cbn [dot] in T. lra. }
  assert (W : weakly_convex n (a :: l)) by (intros i j k x y z I X Y Z; apply Rlt_le; exact (C i j k x y z I X Y Z)).
  destruct (fan_tiles n a l F C ltac:(lia)) as [T _].
  destruct (weak_tiles n a N l F W ltac:(lia)) as [T' _].
  now rewrite T, T'.
Qed.

Lemma nth_weak : forall dbg input set, fits input -> parse dbg input = Ok set ->
  forall f, says input f -> forall i ob n ss,
  nth_error (objects set) i = Some ob -> nth_error (file_objects f) i = Some (n, ss) ->
  forall before rs after, ss = before ++ SFace rs :: after ->
  forall u, let l := map (fun r => place (lookup f r)) rs in u <> vzero -> flat u l -> weakly_convex u l ->
  exists front es back, element_set ob = front ++ es ++ back /\ length front = length (flat_map written before) /\
    length es = (length rs - 2)%nat /\
    weakly_tiles u l (triangles (map (fun e => draw_map (fun c => place (get_vtn_triple ob c)) (draw_element e)) es)).
Proof.
  intros dbg input set Hf Hok f Hs i ob n ss Hob Hss before rs after E u l Hu Hflat Hconvex.
  destruct (nth_fan dbg input set Hf Hok f Hs i ob n ss Hob Hss _ _ _ E) as (front & es & back & a & m & E1 & E2 & E3 & E4 & E5 & E6).
  exists front, es, back. repeat (split; [assumption|]). unfold l in *. rewrite E6, E4 in *. now apply weak_tiles.
Qed.
