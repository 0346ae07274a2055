(** The fan of a polygon has the boundary of the polygon. *)
From Coq Require Import ZArith Lia.
From Verif Require Import ObjModel ObjView SurfaceSpec LexerProofs ObjTop ObjMeaning ObjFacts.
Local Open Scope list_scope.

Section Group.
Context {G : Type} (zero : G) (add : G -> G -> G) (opp : G -> G).
Context (add_comm : forall x y, add x y = add y x) (add_assoc : forall x y z, add x (add y z) = add (add x y) z).
Context (add_zero : forall x, add zero x = x) (add_opp : forall x, add x (opp x) = zero).
Context {A : Type} (w : A -> A -> G) (Hw : forall a b, w a b = opp (w b a)).

Definition sum {B} (v : B -> G) (l : list B) : G := fold_right (fun b g => add (v b) g) zero l.

Lemma sum_app : forall B (v : B -> G) l m, sum v (l ++ m) = add (sum v l) (sum v m).
Proof.
  intros B v l m. induction l as [|b l IH]; cbn [app sum fold_right]; [now rewrite add_zero|].
  fold (sum v (l ++ m)). fold (sum v l). now rewrite IH, add_assoc.
Qed.

Lemma sum_flat : forall B C (v : C -> G) (f : B -> list C) l, sum v (flat_map f l) = sum (fun b => sum v (f b)) l.
Proof. intros B C v f l. induction l as [|b l IH]; [reflexivity|]. cbn [flat_map]. now rewrite sum_app, IH. Qed.

Lemma sum_ext : forall B (v v' : B -> G) l, (forall b, In b l -> v b = v' b) -> sum v l = sum v' l.
Proof.
  intros B v v' l H. induction l as [|b l IH]; [reflexivity|]. cbn [sum fold_right]. f_equal; [apply H; now left|].
  apply IH. intros c Hc. apply H. now right.
Qed.

Lemma sum_map : forall B C (v : C -> G) (f : B -> C) l, sum v (map f l) = sum (fun b => v (f b)) l.
Proof. intros B C v f l. induction l as [|b l IH]; [reflexivity|]. cbn [map sum fold_right]. f_equal. exact IH. Qed.

Definition edge (e : A * A) : G := w (fst e) (snd e).

Lemma back_and_forth : forall a b, add (w a b) (w b a) = zero.
Proof. intros a b. rewrite (Hw b a). apply add_opp. Qed.

Lemma fan_boundary : forall a l b,
  sum edge (triangle_edges (map (fun '(x, y) => (a, x, y)) (pairs (b :: l)))) =
  add (w a b) (sum edge (pairs ((b :: l) ++ [a]))).
Proof.
  intros a l. induction l as [|c l IH]; intros b.
  - cbn. rewrite (add_comm (edge (b, a)) zero), add_zero. symmetry. apply back_and_forth.
  - change (pairs (b :: c :: l)) with ((b, c) :: pairs (c :: l)).
    change (pairs ((b :: c :: l) ++ [a])) with ((b, c) :: pairs ((c :: l) ++ [a])).
    cbn [map triangle_edges flat_map]. fold (triangle_edges (map (fun '(x, y) => (a, x, y)) (pairs (c :: l)))).
    rewrite sum_app, IH. cbn [sum fold_right edge fst snd]. fold (sum edge (pairs ((c :: l) ++ [a]))).
    set (s := sum edge (pairs ((c :: l) ++ [a]))).
    repeat match goal with |- context [edge (?x, ?y)] => change (edge (x, y)) with (w x y) end.
    rewrite (add_comm (w c a) zero), add_zero.
    rewrite <- !add_assoc. f_equal. f_equal. rewrite (add_assoc (w c a)), back_and_forth. apply add_zero.
Qed.

Lemma round_boundary : forall a b l,
  sum edge (triangle_edges (map (fun '(x, y) => (a, x, y)) (pairs (b :: l)))) = sum edge (round (a :: b :: l)).
Proof.
  intros a b l. rewrite fan_boundary. unfold round. change (pairs ((a :: b :: l) ++ [a])) with ((a, b) :: pairs ((b :: l) ++ [a])).
  reflexivity.
Qed.
End Group.

Lemma written_face : forall a l, written (SFace (a :: l)) = map (fun '(b, c) => DFace a b c) (pairs l).
Proof.
  intros a l. cbn [written]. unfold nth_ref. rewrite (pairs_written _ l (mkRef 0 None None)), map_map.
  replace (length (a :: l) - 2) with (length l - 1) by (cbn; lia). apply map_ext. intros i.
  replace (i + 1) with (S i) by lia. replace (i + 2) with (S (S i)) by lia. reflexivity.
Qed.

Lemma written_line : forall l, written (SLine l) = map (fun '(a, b) => DLine a b) (pairs l).
Proof.
  intros l. cbn [written]. unfold nth_ref. now rewrite (pairs_written _ l (mkRef 0 None None)), map_map.
Qed.

Lemma triangles_app : forall A (l m : list (drawn A)), triangles (l ++ m) = triangles l ++ triangles m.
Proof. intros. apply flat_map_app. Qed.

Lemma triangles_written : forall B (p : reference -> B) s,
  triangles (map (draw_map p) (written s)) =
  match s with SFace (a :: l) => map (fun '(x, y) => (p a, x, y)) (pairs (map p l)) | _ => [] end.
Proof.
  intros B p s. destruct s as [| | | | | |ks|rs|[|a l]]; try reflexivity.
  - cbn [written]. rewrite map_map. cbn [draw_map]. induction ks as [|k ks IH]; [reflexivity|]. exact IH.
  - rewrite written_line. generalize (pairs rs). intros l. induction l as [|[a b] l IH]; [reflexivity|]. exact IH.
  - rewrite written_face, map_pairs, !map_map. generalize (pairs l). intros m.
    induction m as [|[b c] m IH]; [reflexivity|]. cbn [map triangles flat_map draw_map app]. f_equal. exact IH.
Qed.

Lemma segments_written : forall B (p : reference -> B) s,
  segments (map (draw_map p) (written s)) = match s with SLine l => pairs (map p l) | _ => [] end.
Proof.
  intros B p s. destruct s as [| | | | | |ks|rs|[|a l]]; try reflexivity.
  - cbn [written]. rewrite map_map. cbn [draw_map]. induction ks as [|k ks IH]; [reflexivity|]. exact IH.
  - rewrite written_line, map_pairs, map_map. generalize (pairs rs). intros l.
    induction l as [|[a b] l IH]; [reflexivity|]. cbn [map segments flat_map draw_map app]. f_equal. exact IH.
  - rewrite written_face. generalize (pairs l). intros m. induction m as [|[b c] m IH]; [reflexivity|]. exact IH.
Qed.

(** A polygon has at least two corners here; three in a file. *)
Definition polygonal (ss : list statement) : Prop := forall rs, In (SFace rs) ss -> 2 <= length rs.

Section Sums.
Context {G : Type} (zero : G) (add : G -> G -> G) (opp : G -> G).
Context (add_comm : forall x y, add x y = add y x) (add_assoc : forall x y z, add x (add y z) = add (add x y) z).
Context (add_zero : forall x, add zero x = x) (add_opp : forall x, add x (opp x) = zero).
Context {B : Type} (w : B -> B -> G) (Hw : forall a b, w a b = opp (w b a)).
Notation sum := (sum zero add).

Lemma surface_boundary : forall (p : reference -> B) ss, polygonal ss ->
  sum (edge w) (triangle_edges (triangles (map (draw_map p) (flat_map written ss)))) =
  sum (edge w) (flat_map round (map (map p) (polygons ss))).
Proof.
  intros p ss. induction ss as [|s ss IH]; intros H; [reflexivity|].
  assert (H' : polygonal ss) by (intros rs Hr; apply H; now right).
  cbn [flat_map polygons]. rewrite !map_app, triangles_app, flat_map_app. unfold triangle_edges in *. rewrite flat_map_app.
  rewrite !(sum_app zero add add_assoc add_zero), (IH H'). f_equal. rewrite triangles_written.
  destruct s as [| | | | | |ks|rs|rs]; try reflexivity.
  specialize (H rs (or_introl eq_refl)). destruct rs as [|a [|b l]]; cbn in H; try lia.
  cbn [map flat_map]. rewrite app_nil_r.
  apply (round_boundary zero add opp add_comm add_assoc add_zero add_opp w Hw).
Qed.
End Sums.

Definition edge_w (w : nat -> nat -> Z) (e : nat * nat) : Z := w (fst e) (snd e).

(** The difference of the two directions. *)
Definition signed_edge (x y a b : nat) : Z :=
  ((if Nat.eqb a x && Nat.eqb b y then 1 else 0) - (if Nat.eqb a y && Nat.eqb b x then 1 else 0))%Z.

Lemma signed_edge_anti : forall x y a b, signed_edge x y a b = (- signed_edge x y b a)%Z.
Proof. intros x y a b. unfold signed_edge. rewrite (andb_comm (b =? x)), (andb_comm (b =? y)). lia. Qed.

Lemma count_signed : forall x y l,
  sum 0%Z Z.add (edge (signed_edge x y)) l = (Z.of_nat (edge_count x y l) - Z.of_nat (edge_count y x l))%Z.
Proof.
  intros x y l. induction l as [|[a b] l IH]; [reflexivity|].
  cbn [sum fold_right]. fold (sum 0%Z Z.add (edge (signed_edge x y)) l). rewrite IH.
  unfold edge_count. cbn [filter fst snd]. change (edge (signed_edge x y) (a, b)) with (signed_edge x y a b). unfold signed_edge.
  destruct (Nat.eqb a x && Nat.eqb b y), (Nat.eqb a y && Nat.eqb b x); cbn [length]; lia.
Qed.

Lemma closed_signed : forall l, closed l <-> forall x y, sum 0%Z Z.add (edge (signed_edge x y)) l = 0%Z.
Proof.
  intros l. split; intros H x y.
  - rewrite count_signed, (H x y). lia.
  - specialize (H x y). rewrite count_signed in H. lia.
Qed.

Lemma edge_count_map : forall (g : nat -> nat) l x y, (forall a b, g a = g b -> a = b) ->
  edge_count (g x) (g y) (map (fun e => (g (fst e), g (snd e))) l) = edge_count x y l.
Proof.
  intros g l x y H. unfold edge_count. induction l as [|[a b] l IH]; [reflexivity|]. cbn [map filter fst snd].
  assert (E : forall u v, Nat.eqb (g u) (g v) = Nat.eqb u v).
  { intros u v. destruct (Nat.eqb_spec u v) as [->|N]; [apply Nat.eqb_refl|]. apply Nat.eqb_neq. intros K. apply N, H, K. }
  rewrite !E. destruct (Nat.eqb a x && Nat.eqb b y); cbn [length]; now rewrite IH.
Qed.

Lemma edge_count_none : forall (g : nat -> nat) l x y, (forall a, g a <> x) \/ (forall a, g a <> y) ->
  edge_count x y (map (fun e => (g (fst e), g (snd e))) l) = 0.
Proof.
  intros g l x y H. unfold edge_count. induction l as [|[a b] l IH]; [reflexivity|]. cbn [map filter fst snd].
  assert (E : Nat.eqb (g a) x && Nat.eqb (g b) y = false).
  { destruct H as [H|H]; [rewrite (proj2 (Nat.eqb_neq _ _) (H a)); reflexivity|].
    rewrite (proj2 (Nat.eqb_neq _ _) (H b)). apply andb_false_r. }
  rewrite E. exact IH.
Qed.

Lemma closed_shift : forall k l, closed (map (fun e => (fst e + k, snd e + k)) l) <-> closed l.
Proof.
  intros k l.
  assert (M : forall x y, edge_count (x + k) (y + k) (map (fun e => (fst e + k, snd e + k)) l) = edge_count x y l).
  { intros x y. apply (edge_count_map (fun a => a + k)). intros a b. lia. }
  split; intros H x y.
  - rewrite <- !M. apply H.
  - destruct (Nat.le_gt_cases k x) as [Hx|Hx], (Nat.le_gt_cases k y) as [Hy|Hy].
    + replace x with (x - k + k) by lia. replace y with (y - k + k) by lia. rewrite !M. apply H.
    + rewrite !(edge_count_none (fun a => a + k)); auto; [left|right]; intros a; lia.
    + rewrite !(edge_count_none (fun a => a + k)); auto; [right|left]; intros a; lia.
    + rewrite !(edge_count_none (fun a => a + k)); auto; left; intros a; lia.
Qed.

Lemma round_map : forall A B (g : A -> B) l, round (map g l) = map (fun e => (g (fst e), g (snd e))) (round l).
Proof.
  intros A B g [|a l]; [reflexivity|]. unfold round. cbn [map].
  change (g a :: map g l) with (map g (a :: l)). change [g a] with (map g [a]). rewrite <- map_app, map_pairs.
  apply map_ext. now intros [x y].
Qed.

Lemma referred_used : forall s r,
  match s with SLine rs => 2 <= length rs | SFace rs => 3 <= length rs | _ => True end ->
  In r (referred s) <-> exists d, In d (written s) /\ In r (corners d).
Proof.
  intros s r L. split.
  - intros H. destruct s as [| | | | | |ks|rs|rs]; try contradiction.
    + cbn [referred] in H. exists (DPoint r). split; [|now left]. cbn [written]. apply in_map_iff in H. destruct H as (k & <- & Hk).
      apply in_map_iff. eauto.
    + cbn [referred] in H. rewrite written_line.
      assert (P : exists p, In p (pairs rs) /\ (r = fst p \/ r = snd p)).
      { clear - H L. revert H L. induction rs as [|x [|y l] IH]; cbn [length]; intros H L; [destruct H|lia|].
        destruct H as [<-|H]; [exists (x, y); split; [now left|now left]|]. destruct l as [|z l].
        - destruct H as [<-|[]]. exists (x, y). split; [now left|now right].
        - destruct (IH H) as (p & Hp & Ha); [cbn; lia|]. exists p. split; [|exact Ha]. right. exact Hp. }
      destruct P as ([a b] & Hp & Ha). exists (DLine a b). split; [apply in_map_iff; exists (a, b); auto|]. cbn in Ha |- *. intuition.
    + cbn [referred] in H. destruct rs as [|x rs]; [destruct H|]. rewrite written_face.
      assert (P : exists p, In p (pairs rs) /\ (r = x \/ r = fst p \/ r = snd p)).
      { destruct H as [<-|H].
        - destruct rs as [|a [|b l]]; cbn in L; try lia. exists (a, b). split; [now left|now left].
        - assert (L' : 2 <= length rs) by (cbn in L; lia). clear L. revert H L'.
          induction rs as [|u [|y l] IH]; cbn [length]; intros H L; [destruct H|lia|].
          destruct H as [<-|H]; [exists (u, y); split; [now left|right; now left]|]. destruct l as [|z l].
          + destruct H as [<-|[]]. exists (u, y). split; [now left|right; now right].
          + destruct (IH H) as (p & Hp & Ha); [cbn; lia|]. exists p. split; [|exact Ha]. right. exact Hp. }
      destruct P as ([a b] & Hp & Ha). exists (DFace x a b). split; [apply in_map_iff; exists (a, b); auto|]. cbn in Ha |- *. intuition.
  - intros (d & Hd & Hr). pose proof (written_corners _ _ _ Hd Hr) as H. destruct s; try contradiction; auto.
    destruct H as (k & Hk & ->). cbn [referred]. apply in_map_iff. eauto.
Qed.

Section Nth.
Context (dbg : bool) (input : bytes) (set : object_set) (Hf : fits input) (Hok : parse dbg input = Ok set).
Context (f : obj_file) (Hs : says input f) (i : nat) (ob : object) (n : bytes) (ss : list statement).
Context (Hob : nth_error (objects set) i = Some ob) (Hss : nth_error (file_objects f) i = Some (n, ss)).

Lemma nth_proper : forall s, In s ss -> exists now, proper (base_of f i) now s.
Proof.
  intros s H. apply in_split in H. destruct H as (before & after & E).
  pose proof (proper_nth _ _ _ _ (said_proper _ _ Hs) Hss) as P. cbn [snd] in P. rewrite <- (base_is f i) in P.
  eexists. exact (proper_at _ _ _ _ _ _ P E).
Qed.

Lemma nth_polygonal : polygonal ss.
Proof. intros rs H. destruct (nth_proper _ H) as (now & L & _). lia. Qed.

Lemma nth_drawn : map draw_element (element_set ob) = map (draw_map (local_ref (base_of f i))) (flat_map written ss).
Proof. rewrite (nth_is _ _ _ Hf Hok _ Hs _ _ _ _ Hob Hss). cbn [element_set object_of]. apply all_elements_written. Qed.

Lemma nth_boundary : forall w : option vtn_triple -> option vtn_triple -> Z, (forall x y, w x y = (- w y x)%Z) ->
  total (fun e => w (fst e) (snd e)) (triangle_edges (triangles (map (fun e => draw_map (get_vtn_triple ob) (draw_element e)) (element_set ob)))) =
  total (fun e => w (fst e) (snd e)) (flat_map round (map (map (lookup f)) (polygons ss))).
Proof.
  intros w Hw. destruct (nth_resolved _ _ _ Hf Hok _ Hs _ _ _ _ Hob Hss) as [-> _].
  apply (surface_boundary 0%Z Z.add Z.opp Z.add_comm Z.add_assoc Z.add_0_l Z.add_opp_diag_r w Hw). apply nth_polygonal.
Qed.

Lemma in_polygons : forall rs, In rs (polygons ss) <-> In (SFace rs) ss.
Proof.
  intros rs. unfold polygons. rewrite in_flat_map. split.
  - intros ([| | | | | |ks|l|l] & H & K); try contradiction. destruct K as [<-|[]]. exact H.
  - intros H. exists (SFace rs). split; [exact H|now left].
Qed.

Lemma nth_closed :
  closed (triangle_edges (triangles (map (fun e => draw_map index_vertex (draw_element e)) (element_set ob)))) <->
  closed (flat_map round (map (map ref_v) (polygons ss))).
Proof.
  set (base := base_of f i).
  assert (E : map (fun e => draw_map index_vertex (draw_element e)) (element_set ob) =
              map (draw_map (fun r => index_vertex (local_ref base r))) (flat_map written ss)).
  { rewrite <- (map_map draw_element (draw_map index_vertex)), nth_drawn, map_map. apply map_ext. now intros []. }
  rewrite E. clear E.
  assert (K : map (map ref_v) (polygons ss) =
    map (map (fun r => index_vertex (local_ref base r) + S (n_v base))) (polygons ss)).
  { apply map_ext_in. intros rs Hr. apply map_ext_in. intros r Hi. apply in_polygons in Hr.
    destruct (nth_proper _ Hr) as (now & _ & _ & P). rewrite Forall_forall in P. specialize (P _ Hi).
    destruct P as ([P _] & _ & _). fold base in P.
    assert (I : index_vertex (local_ref base r) = ref_v r - S (n_v base)).
    { unfold local_ref, local_index. destruct (ref_t r), (ref_n r); reflexivity. }
    rewrite I. lia. }
  rewrite K.
  assert (M : flat_map round (map (map (fun r => index_vertex (local_ref base r) + S (n_v base))) (polygons ss)) =
    map (fun e => (fst e + S (n_v base), snd e + S (n_v base)))
      (flat_map round (map (map (fun r => index_vertex (local_ref base r))) (polygons ss)))).
  { clear. induction (polygons ss) as [|rs l IH]; [reflexivity|]. cbn [map flat_map]. rewrite IH, map_app. f_equal.
    rewrite <- (map_map (fun r => index_vertex (local_ref base r)) (fun k => k + S (n_v base))). apply round_map. }
  rewrite M, closed_shift, !closed_signed.
  assert (S : forall x y, sum 0%Z Z.add (edge (signed_edge x y))
      (triangle_edges (triangles (map (draw_map (fun r => index_vertex (local_ref base r))) (flat_map written ss)))) =
    sum 0%Z Z.add (edge (signed_edge x y)) (flat_map round (map (map (fun r => index_vertex (local_ref base r))) (polygons ss)))).
  { intros x y.
    apply (surface_boundary 0%Z Z.add Z.opp Z.add_comm Z.add_assoc Z.add_0_l Z.add_opp_diag_r _ (signed_edge_anti x y)), nth_polygonal. }
  split; intros H x y; specialize (H x y); specialize (S x y); congruence.
Qed.

Lemma nth_used : forall c,
  (exists e, In e (element_set ob) /\ In c (corners (draw_element e))) <->
  (exists s r, In s ss /\ In r (referred s) /\ c = local_ref (base_of f i) r).
Proof.
  intros c.
  assert (L : forall s, In s ss -> match s with SLine rs => 2 <= length rs | SFace rs => 3 <= length rs | _ => True end).
  { intros s H. destruct (nth_proper _ H) as (now & P). destruct s; try exact I; apply P. }
  assert (C : forall d, corners (draw_map (local_ref (base_of f i)) d) = map (local_ref (base_of f i)) (corners d)) by (now intros []).
  split.
  - intros (e & He & Hc). assert (Hd : In (draw_element e) (map draw_element (element_set ob))) by now apply in_map.
    rewrite nth_drawn in Hd. apply in_map_iff in Hd. destruct Hd as (d & Ed & Hd). rewrite <- Ed, C in Hc.
    apply in_map_iff in Hc. destruct Hc as (r & <- & Hr). apply in_flat_map in Hd. destruct Hd as (s & Hs' & Hd).
    exists s, r. split; [exact Hs'|]. split; [|reflexivity]. apply (referred_used s r (L s Hs')). eauto.
  - intros (s & r & Hs' & Hr & ->). apply (referred_used s r (L s Hs')) in Hr. destruct Hr as (d & Hd & Hr).
    assert (In (draw_map (local_ref (base_of f i)) d) (map draw_element (element_set ob))) as H.
    { rewrite nth_drawn. apply in_map. apply in_flat_map. eauto. }
    apply in_map_iff in H. destruct H as (e & Ee & He). exists e. split; [exact He|]. rewrite Ee, C. now apply in_map.
Qed.

Lemma segments_app : forall A (l m : list (drawn A)), segments (l ++ m) = segments l ++ segments m.
Proof. intros. apply flat_map_app. Qed.

Lemma total_app : forall A (v : A -> Z) l m, total v (l ++ m) = (total v l + total v m)%Z.
Proof. intros A v l m. induction l as [|a l IH]; [reflexivity|]. cbn [app total fold_right]. fold (total v (l ++ m)). fold (total v l). lia. Qed.

(** The ends of a polyline. *)
Lemma telescope : forall A (v : A -> Z) l a z, total (fun e => (v (snd e) - v (fst e))%Z) (pairs (a :: l)) = (v (last (a :: l) z) - v a)%Z.
Proof.
  intros A v l. induction l as [|b l IH]; intros a z; [cbn; lia|].
  change (pairs (a :: b :: l)) with ((a, b) :: pairs (b :: l)). cbn [total fold_right fst snd].
  fold (total (fun e => (v (snd e) - v (fst e))%Z) (pairs (b :: l))). rewrite (IH b z).
  change (last (a :: b :: l) z) with (last (b :: l) z). lia.
Qed.

Lemma nth_ends : forall v : option vtn_triple -> Z,
  total (fun e => (v (snd e) - v (fst e))%Z) (segments (map (fun e => draw_map (get_vtn_triple ob) (draw_element e)) (element_set ob))) =
  total (fun l => (v (last l None) - v (hd None l))%Z) (map (map (lookup f)) (polylines ss)).
Proof.
  intros v. destruct (nth_resolved _ _ _ Hf Hok _ Hs _ _ _ _ Hob Hss) as [-> _].
  clear. induction ss as [|s l IH]; [reflexivity|]. cbn [flat_map polylines]. rewrite !map_app, segments_app, !total_app, IH. f_equal.
  rewrite segments_written. destruct s as [| | | | | |ks|rs|rs]; try reflexivity.
  cbn [map total fold_right]. destruct (map (lookup f) rs) as [|a m]; [cbn; lia|]. rewrite (telescope _ v m a None). cbn [hd]. lia.
Qed.

Lemma nth_ends_proper : forall l, In l (polylines ss) -> 2 <= length l.
Proof.
  intros l H. unfold polylines in H. apply in_flat_map in H. destruct H as ([| | | | | |ks|rs|rs] & H & K); try contradiction.
  destruct K as [<-|[]]. destruct (nth_proper _ H) as (now & P & _). exact P.
Qed.
End Nth.
