(** The fan of a convex polygon tiles it. *)
From Coq Require Import Reals Lra Lia.
From Verif Require Import ObjModel ObjView SurfaceSpec AreaSpec TileSpec LexerProofs ObjTop ObjMeaning ObjFacts ObjMore SurfaceProofs AreaProofs.
Local Open Scope list_scope.
Local Open Scope R_scope.

Ltac coords := repeat match goal with p : vec |- _ => destruct p as [[? ?] ?] end.
Ltac flatten := coords; unfold turn, vzero in *; cbn [dot scale cross vsub vadd] in *.

Lemma turn_rotate : forall n a b c, turn n a b c = turn n b c a.
Proof. intros. flatten. ring. Qed.
Lemma turn_swap : forall n a b c, turn n a b c = - turn n a c b.
Proof. intros. flatten. ring. Qed.
Lemma turn_back : forall n a b c, turn n a b c = - turn n b a c.
Proof. intros. flatten. ring. Qed.
Lemma turn_first : forall n a b, turn n a b a = 0.
Proof. intros. flatten. ring. Qed.
Lemma turn_second : forall n a b, turn n a b b = 0.
Proof. intros. flatten. ring. Qed.

(** [turn] is affine in the last point. *)
Lemma turn_affine : forall n a b p q r x y z, x + y + z = 1 ->
  turn n a b (vadd (scale x p) (vadd (scale y q) (scale z r))) = x * turn n a b p + y * turn n a b q + z * turn n a b r.
Proof. intros n a b p q r x y z E. replace z with (1 - x - y) by lra. flatten. ring. Qed.

Lemma dot_affine : forall n a p q r x y z, x + y + z = 1 ->
  dot n (vsub (vadd (scale x p) (vadd (scale y q) (scale z r))) a) =
  x * dot n (vsub p a) + y * dot n (vsub q a) + z * dot n (vsub r a).
Proof. intros n a p q r x y z E. replace z with (1 - x - y) by lra. flatten. ring. Qed.

Lemma dot_back : forall n p q, dot n (vsub q p) = - dot n (vsub p q).
Proof. intros. flatten. ring. Qed.
Lemma dot_through : forall n p q r, dot n (vsub r p) = dot n (vsub r q) + dot n (vsub q p).
Proof. intros. flatten. ring. Qed.
Lemma dot_self : forall n p, dot n (vsub p p) = 0.
Proof. intros. flatten. ring. Qed.

(** A point of the plane in terms of the corners. *)
Lemma barycentric : forall n a b c p, dot n (vsub b a) = 0 -> dot n (vsub c a) = 0 -> dot n (vsub p a) = 0 ->
  turn n a b c <> 0 ->
  let d := turn n a b c in
  p = vadd (scale (turn n b c p / d) a) (vadd (scale (turn n c a p / d) b) (scale (turn n a b p / d) c)) /\
  turn n b c p / d + turn n c a p / d + turn n a b p / d = 1.
Proof.
  intros n a b c p Hb Hc Hp D. cbv zeta. set (d := turn n a b c) in *.
  assert (S : turn n b c p + turn n c a p + turn n a b p = d) by (unfold d; flatten; ring).
  assert (S' : turn n b c p / d + turn n c a p / d + turn n a b p / d = 1) by (rewrite <- S; field; lra).
  split; [|exact S'].
  assert (K : scale d p = vadd (scale (turn n b c p) a) (vadd (scale (turn n c a p) b) (scale (turn n a b p) c))).
  { replace (turn n b c p) with (d - turn n c a p - turn n a b p) by lra. unfold d.
    clear - Hb Hc Hp. destruct n as [[n1 n2] n3], a as [[a1 a2] a3], b as [[b1 b2] b3], c as [[c1 c2] c3], p as [[p1 p2] p3].
    unfold turn. cbn [dot scale cross vsub vadd] in *.
    set (u1 := b1 - a1) in *. set (u2 := b2 - a2) in *. set (u3 := b3 - a3) in *.
    set (v1 := c1 - a1) in *. set (v2 := c2 - a2) in *. set (v3 := c3 - a3) in *.
    set (q1 := p1 - a1) in *. set (q2 := p2 - a2) in *. set (q3 := p3 - a3) in *.
    replace b1 with (a1 + u1) by (unfold u1; ring). replace b2 with (a2 + u2) by (unfold u2; ring). replace b3 with (a3 + u3) by (unfold u3; ring).
    replace c1 with (a1 + v1) by (unfold v1; ring). replace c2 with (a2 + v2) by (unfold v2; ring). replace c3 with (a3 + v3) by (unfold v3; ring).
    replace p1 with (a1 + q1) by (unfold q1; ring). replace p2 with (a2 + q2) by (unfold q2; ring). replace p3 with (a3 + q3) by (unfold q3; ring).
    clearbody u1 u2 u3 v1 v2 v3 q1 q2 q3.
    assert (N1 : (q1 * (u2 * v3 - u3 * v2) - q2 * (u1 * v3 - u3 * v1) + q3 * (u1 * v2 - u2 * v1)) * n1 = 0).
    { transitivity ((n1 * q1 + n2 * q2 + n3 * q3) * (u2 * v3 - u3 * v2) + (n1 * u1 + n2 * u2 + n3 * u3) * (v2 * q3 - v3 * q2)
        + (n1 * v1 + n2 * v2 + n3 * v3) * (q2 * u3 - q3 * u2)); [ring|]. rewrite Hb, Hc, Hp. ring. }
    assert (N2 : (q1 * (u2 * v3 - u3 * v2) - q2 * (u1 * v3 - u3 * v1) + q3 * (u1 * v2 - u2 * v1)) * n2 = 0).
    { transitivity ((n1 * q1 + n2 * q2 + n3 * q3) * (u3 * v1 - u1 * v3) + (n1 * u1 + n2 * u2 + n3 * u3) * (v3 * q1 - v1 * q3)
        + (n1 * v1 + n2 * v2 + n3 * v3) * (q3 * u1 - q1 * u3)); [ring|]. rewrite Hb, Hc, Hp. ring. }
    assert (N3 : (q1 * (u2 * v3 - u3 * v2) - q2 * (u1 * v3 - u3 * v1) + q3 * (u1 * v2 - u2 * v1)) * n3 = 0).
    { transitivity ((n1 * q1 + n2 * q2 + n3 * q3) * (u1 * v2 - u2 * v1) + (n1 * u1 + n2 * u2 + n3 * u3) * (v1 * q2 - v2 * q1)
        + (n1 * v1 + n2 * v2 + n3 * v3) * (q1 * u2 - q2 * u1)); [ring|]. rewrite Hb, Hc, Hp. ring. }
    apply vec_eq; [apply (Rplus_eq_reg_r 0); rewrite <- N1 at 2 | apply (Rplus_eq_reg_r 0); rewrite <- N2 at 2 | apply (Rplus_eq_reg_r 0); rewrite <- N3 at 2]; ring. }
  assert (K' : p = scale (/ d) (scale d p)).
  { clear - D. destruct p as [[x y] z]. cbn [scale]. apply vec_eq; field; exact D. }
  rewrite K' at 1. rewrite K. clear - D. flatten. apply vec_eq; field; exact D.
Qed.

Lemma in_triangle_turns : forall n a b c p, dot n (vsub b a) = 0 -> dot n (vsub c a) = 0 -> dot n (vsub p a) = 0 ->
  0 < turn n a b c -> 0 <= turn n a b p -> 0 <= turn n b c p -> 0 <= turn n c a p -> in_triangle (a, b, c) p.
Proof.
  intros n a b c p Hb Hc Hp D H1 H2 H3. destruct (barycentric n a b c p Hb Hc Hp) as [E S]; [lra|].
  exists (turn n b c p / turn n a b c), (turn n c a p / turn n a b c), (turn n a b p / turn n a b c).
  assert (P : forall x, 0 <= x -> 0 <= x / turn n a b c).
  { intros x Hx. apply Rmult_le_pos; [exact Hx|]. apply Rlt_le, Rinv_0_lt_compat, D. }
  repeat split; auto.
Qed.

(** Somewhere on the way from a point on the left to one on the right. *)
Lemma crossing : forall (s : vec -> R) l b z, (1 <= length l)%nat -> 0 <= s b -> s (last l z) <= 0 ->
  exists x y, In (x, y) (pairs (b :: l)) /\ 0 <= s x /\ s y <= 0.
Proof.
  intros s l. induction l as [|c l IH]; intros b z L H0 H1; [cbn in L; lia|].
  destruct (Rle_or_lt (s c) 0) as [Hc|Hc].
  - exists b, c. split; [now left|]. auto.
  - destruct l as [|d l]; [cbn in H1; lra|].
    destruct (IH c z) as (x & y & I & Hx & Hy); [cbn; lia|lra|exact H1|].
    exists x, y. split; [|auto]. right. exact I.
Qed.

Lemma nth_pair : forall A (l : list A) i x y, nth_error (pairs l) i = Some (x, y) -> nth_error l i = Some x /\ nth_error l (S i) = Some y.
Proof.
  intros A l. induction l as [|a [|b l] IH]; intros i x y H; [destruct i; discriminate|destruct i; discriminate|].
  change (pairs (a :: b :: l)) with ((a, b) :: pairs (b :: l)) in H. destruct i as [|i].
  - cbn in H. injection H as <- <-. auto.
  - apply (IH i). exact H.
Qed.

(** The edges of a polygon: between neighbours, and the last one. *)
Lemma round_edges : forall l (c a x y : vec), In (x, y) (pairs ((c :: l) ++ [a])) ->
  In (x, y) (pairs (c :: l)) \/ (x = last (c :: l) a /\ y = a).
Proof.
  induction l as [|b l IH]; intros c a x y H.
  - cbn in H. destruct H as [H|[]]. injection H as <- <-. right. auto.
  - change (pairs ((c :: b :: l) ++ [a])) with ((c, b) :: pairs ((b :: l) ++ [a])) in H.
    change (pairs (c :: b :: l)) with ((c, b) :: pairs (b :: l)). destruct H as [H|H]; [left; left; exact H|].
    destruct (IH _ _ _ _ H) as [K|[K1 K2]]; [left; right; exact K|right; split; [exact K1|exact K2]].
Qed.

Lemma round_pairs : forall l (c a x y : vec), In (x, y) (pairs (c :: l)) -> In (x, y) (pairs ((c :: l) ++ [a])).
Proof.
  induction l as [|b l IH]; intros c a x y H; [destruct H|].
  change (pairs ((c :: b :: l) ++ [a])) with ((c, b) :: pairs ((b :: l) ++ [a])).
  change (pairs (c :: b :: l)) with ((c, b) :: pairs (b :: l)) in H. destruct H as [H|H]; [now left|]. right. now apply IH.
Qed.

Lemma round_last : forall l (c a : vec), In (last (c :: l) a, a) (pairs ((c :: l) ++ [a])).
Proof.
  induction l as [|b l IH]; intros c a; [now left|].
  change (pairs ((c :: b :: l) ++ [a])) with ((c, b) :: pairs ((b :: l) ++ [a])).
  change (last (c :: b :: l) a) with (last (b :: l) a). right. apply IH.
Qed.

Lemma nth_last : forall (l : list vec) a z, exists k, nth_error (a :: l) k = Some (last (a :: l) z) /\ k = length l.
Proof.
  induction l as [|b l IH]; intros a z; [exists 0%nat; auto|].
  destruct (IH b z) as (k & H & ->). exists (S (length l)). split; [exact H|reflexivity].
Qed.

Lemma last_cons : forall (m : list vec) b z, last (b :: m) z = last m b.
Proof.
  induction m as [|c m IH]; intros b z; [reflexivity|]. change (last (b :: c :: m) z) with (last (c :: m) z). now rewrite !IH.
Qed.

Section Fan.
Context (n a : vec) (l : list vec) (Hflat : flat n (a :: l)) (Hconvex : convex n (a :: l)) (Hlen : (2 <= length l)%nat).
Notation fan := (map (fun '(x, y) => (a, x, y)) (pairs l)).

(** Every corner is to the left of every edge. *)
Lemma corner_left : forall x y q, In (x, y) (round (a :: l)) -> In q (a :: l) -> 0 <= turn n x y q.
Proof.
  intros x y q He Hq. apply In_nth_error in Hq. destruct Hq as [j Hj].
  destruct (round_edges _ _ _ _ _ He) as [K|[Ex Ey]].
  - apply In_nth_error in K. destruct K as [k Hk]. apply nth_pair in Hk. destruct Hk as [Hx Hy].
    destruct (Nat.lt_trichotomy j k) as [L|[->|L]].
    + rewrite <- turn_rotate. apply Rlt_le. apply (Hconvex j k (S k)); auto.
    + rewrite Hx in Hj. injection Hj as <-. rewrite turn_first. lra.
    + destruct (Nat.eq_dec j (S k)) as [->|N].
      * rewrite Hy in Hj. injection Hj as <-. rewrite turn_second. lra.
      * apply Rlt_le, (Hconvex k (S k) j); auto. lia.
  - subst y. destruct (nth_last l a a) as (m & Hm & Em). rewrite <- Ex in Hm.
    assert (J : (j <= m)%nat).
    { assert (nth_error (a :: l) j <> None) by congruence. apply nth_error_Some in H. cbn in H. lia. }
    destruct (Nat.eq_dec j 0) as [->|J0]; [cbn in Hj; injection Hj as <-; rewrite turn_second; lra|].
    destruct (Nat.eq_dec j m) as [->|Jm]; [rewrite Hm in Hj; injection Hj as <-; rewrite turn_first; lra|].
    rewrite turn_rotate. apply Rlt_le, (Hconvex 0%nat j m); auto. lia.
Qed.

Lemma fan_at : forall i t, nth_error fan i = Some t -> exists x y, t = (a, x, y) /\
  nth_error (a :: l) (S i) = Some x /\ nth_error (a :: l) (S (S i)) = Some y.
Proof.
  intros i t H. rewrite nth_error_map in H. destruct (nth_error (pairs l) i) as [[x y]|] eqn:E; [|discriminate].
  cbn in H. injection H as <-. apply nth_pair in E. exists x, y. split; [reflexivity|exact E].
Qed.

Lemma fan_turn : forall x y z, In (x, y, z) fan -> 0 < turn n x y z.
Proof.
  intros x y z H. apply In_nth_error in H. destruct H as [i H]. apply fan_at in H. destruct H as (u & v & E & Hu & Hv).
  injection E as -> -> ->. apply (Hconvex 0%nat (S i) (S (S i))); auto. lia.
Qed.

Lemma fan_covers : forall p, in_polygon n (a :: l) p -> exists t, In t fan /\ in_triangle t p.
Proof.
  intros p [Hp Hi]. destruct l as [|b m] eqn:El; [cbn in Hlen; lia|]. rewrite <- El in *.
  assert (Hb : 0 <= turn n a b p). { apply Hi. apply round_pairs. rewrite El. now left. }
  assert (He : turn n a (last m b) p <= 0).
  { assert (E : last (a :: l) a = last m b).
    { rewrite El. change (last (a :: b :: m) a) with (last (b :: m) a). apply last_cons. }
    pose proof (Hi _ _ (round_last l a a)) as H. rewrite E, turn_back in H. lra. }
  destruct (crossing (fun q => turn n a q p) m b b) as (x & y & I & Hx & Hy); auto.
  { rewrite El in Hlen. cbn in Hlen. lia. }
  exists (a, x, y). rewrite <- El in I. split; [apply in_map_iff; exists (x, y); auto|].
  assert (Ix : In x l /\ In y l).
  { unfold pairs in I. split; [now apply in_combine_l in I|]. apply in_combine_r in I. rewrite El in *. now right. }
  apply (in_triangle_turns n).
  - apply Hflat; [now left|right; apply Ix].
  - apply Hflat; [now left|right; apply Ix].
  - apply Hp; [right; now left|now left].
  - apply fan_turn. apply in_map_iff. exists (x, y). auto.
  - exact Hx.
  - apply Hi. apply round_pairs. rewrite El in *. right. exact I.
  - rewrite turn_rotate, turn_swap. lra.
Qed.

Lemma fan_within : forall t p, In t fan -> in_triangle t p -> in_polygon n (a :: l) p.
Proof.
  intros [[u v] w] p Ht (x & y & z & Hx & Hy & Hz & E & ->).
  assert (I : In u (a :: l) /\ In v (a :: l) /\ In w (a :: l)).
  { apply in_map_iff in Ht. destruct Ht as ([v' w'] & K & I). injection K as <- <- <-. split; [now left|].
    unfold pairs in I. split; right; [now apply in_combine_l in I|]. apply in_combine_r in I. destruct l; [destruct I|now right]. }
  destruct I as (Iu & Iv & Iw).
  assert (P : forall q, In q (a :: l) -> dot n (vsub (vadd (scale x u) (vadd (scale y v) (scale z w))) q) = 0).
  { intros q Hq. rewrite dot_affine by exact E. rewrite (Hflat q u Hq Iu), (Hflat q v Hq Iv), (Hflat q w Hq Iw). ring. }
  split.
  - intros q r [<-|Hq] [<-|Hr]; [apply dot_self|rewrite dot_back, P by assumption; ring|now apply P|now apply Hflat].
  - intros q r He. rewrite turn_affine by exact E.
    pose proof (corner_left _ _ _ He Iu). pose proof (corner_left _ _ _ He Iv). pose proof (corner_left _ _ _ He Iw).
    assert (forall s t, 0 <= s -> 0 <= t -> 0 <= s * t) by (intros; now apply Rmult_le_pos).
    pose proof (H2 x _ Hx H). pose proof (H2 y _ Hy H0). pose proof (H2 z _ Hz H1). lra.
Qed.

Lemma fan_apart : forall i j t u p, (i < j)%nat -> nth_error fan i = Some t -> nth_error fan j = Some u ->
  inside_triangle t p -> ~ inside_triangle u p.
Proof.
  intros i j t u p L Ht Hu It Iu. apply fan_at in Ht, Hu. destruct Ht as (b & c & -> & Hb & Hc), Hu as (d & e & -> & Hd & He).
  destruct It as (x & y & z & Hx & Hy & Hz & E & Ep), Iu as (x' & y' & z' & Hx' & Hy' & Hz' & E' & Ep').
  (* p is to the right of a -> d, seen in the first triangle, and to the left, seen in the second *)
  assert (R : turn n a d p < 0).
  { rewrite Ep, turn_affine by exact E. rewrite turn_first.
    assert (A1 : turn n a d b < 0).
    { rewrite turn_swap. assert (0 < turn n a b d) by (apply (Hconvex 0%nat (S i) (S j)); auto; lia). lra. }
    assert (A2 : turn n a d c <= 0).
    { destruct (Nat.eq_dec (S (S i)) (S j)) as [Q|Q].
      - rewrite Q in Hc. rewrite Hd in Hc. injection Hc as <-. rewrite turn_second. lra.
      - rewrite turn_swap. assert (0 < turn n a c d) by (apply (Hconvex 0%nat (S (S i)) (S j)); auto; lia). lra. }
    assert (y * turn n a d b < 0) by (rewrite <- (Rmult_0_r y); now apply Rmult_lt_compat_l).
    assert (z * turn n a d c <= 0) by (rewrite <- (Rmult_0_r z); apply Rmult_le_compat_l; lra). lra. }
  assert (T : 0 < turn n a d p).
  { rewrite Ep', turn_affine by exact E'. rewrite turn_first, turn_second.
    assert (0 < turn n a d e) by (apply (Hconvex 0%nat (S j) (S (S j))); auto; lia).
    assert (0 < z' * turn n a d e) by now apply Rmult_lt_0_compat. lra. }
  lra.
Qed.

Lemma fan_tiles : tiles n (a :: l) fan.
Proof.
  split; [|split].
  - intros p. split; [apply fan_covers|]. intros (t & Ht & Hp). eapply fan_within; eauto.
  - exact fan_apart.
  - exact fan_turn.
Qed.
End Fan.

Section Nth.
Context (dbg : bool) (input : bytes) (set : object_set) (Hf : fits input) (Hok : parse dbg input = Ok set).
Context (f : obj_file) (Hs : says input f) (i : nat) (ob : object) (n : bytes) (ss : list statement).
Context (Hob : nth_error (objects set) i = Some ob) (Hss : nth_error (file_objects f) i = Some (n, ss)).

Lemma app_parts : forall A (a b c a' b' c' : list A), a ++ b ++ c = a' ++ b' ++ c' -> length a = length a' -> length b = length b' -> b = b'.
Proof.
  intros A a. induction a as [|x a IH]; intros b c [|x' a'] b' c' E La Lb; cbn in La; try lia.
  - cbn [app] in E. clear La. revert b' E Lb. induction b as [|y b IH]; intros [|y' b'] E Lb; cbn in Lb; try lia; [reflexivity|].
    cbn in E. injection E as -> E. f_equal. apply IH; [exact E|lia].
  - cbn in E. injection E as -> E. eapply IH; [exact E|lia|exact Lb].
Qed.

(** The triangles of a face: the fan of its corners. *)
Lemma nth_fan : forall before rs after, ss = before ++ SFace rs :: after ->
  exists front es back a l, element_set ob = front ++ es ++ back /\ length front = length (flat_map written before) /\
    length es = (length rs - 2)%nat /\ map (fun r => place (lookup f r)) rs = a :: l /\ (2 <= length l)%nat /\
    triangles (map (fun e => draw_map (fun c => place (get_vtn_triple ob c)) (draw_element e)) es) =
      map (fun '(x, y) => (a, x, y)) (pairs l).
Proof.
  intros before rs after E.
  destruct (nth_elements _ _ _ Hf Hok _ Hs _ _ _ _ Hob Hss _ _ _ E) as (front & back & Ee & El).
  assert (P : (3 <= length rs)%nat).
  { destruct (nth_proper _ _ Hs _ _ _ Hss (SFace rs)) as (now & P & _); [rewrite E; apply in_elt|exact P]. }
  destruct rs as [|r rs]; [cbn in P; lia|].
  exists front, (elements_of (base_of f i) (SFace (r :: rs))), back, (place (lookup f r)), (map (fun r => place (lookup f r)) rs).
  split; [exact Ee|]. split; [exact El|].
  assert (Lw : length (elements_of (base_of f i) (SFace (r :: rs))) = length (written (SFace (r :: rs)))) by apply length_written.
  split; [rewrite Lw; cbn [written]; now rewrite map_length, seq_length|].
  split; [reflexivity|]. split; [rewrite map_length; cbn in P; lia|].
  destruct (nth_resolved _ _ _ Hf Hok _ Hs _ _ _ _ Hob Hss) as [R _].
  assert (K : map (fun e => draw_map (get_vtn_triple ob) (draw_element e)) (elements_of (base_of f i) (SFace (r :: rs))) =
              map (draw_map (lookup f)) (written (SFace (r :: rs)))).
  { rewrite Ee, E in R. rewrite flat_map_app in R. cbn [flat_map] in R. rewrite !map_app in R.
    apply app_parts in R; [exact R| |]; now rewrite !map_length. }
  assert (K' : map (fun e => draw_map (fun c => place (get_vtn_triple ob c)) (draw_element e)) (elements_of (base_of f i) (SFace (r :: rs))) =
               map (draw_map (fun r => place (lookup f r))) (written (SFace (r :: rs)))).
  { transitivity (map (draw_map place) (map (fun e => draw_map (get_vtn_triple ob) (draw_element e)) (elements_of (base_of f i) (SFace (r :: rs))))).
    - rewrite map_map. apply map_ext. intros e. now destruct (draw_element e).
    - rewrite K, map_map. apply map_ext. now intros []. }
  rewrite K', triangles_written. reflexivity.
Qed.

Lemma nth_tiles : forall before rs after, ss = before ++ SFace rs :: after ->
  forall u, let l := map (fun r => place (lookup f r)) rs in flat u l -> convex u l ->
  exists front es back, element_set ob = front ++ es ++ back /\ length front = length (flat_map written before) /\
    length es = (length rs - 2)%nat /\
    tiles u l (triangles (map (fun e => draw_map (fun c => place (get_vtn_triple ob c)) (draw_element e)) es)).
Proof.
  intros before rs after E u l Hflat Hconvex.
  destruct (nth_fan _ _ _ E) as (front & es & back & a & m & E1 & E2 & E3 & E4 & E5 & E6).
  exists front, es, back. repeat (split; [assumption|]). unfold l in *. rewrite E6, E4 in *. now apply fan_tiles.
Qed.
End Nth.
