(** The fan of a polygon has the area of the polygon. *)
From Coq Require Import Reals.
From Verif Require Import ObjModel ObjView SurfaceSpec AreaSpec LexerProofs ObjTop ObjMeaning ObjFacts SurfaceProofs.
Local Open Scope list_scope.
Local Open Scope R_scope.

Definition vopp (p : vec) : vec := let '(a, b, c) := p in (- a, - b, - c).

Lemma vec_eq : forall a b c x y z : R, a = x -> b = y -> c = z -> (a, b, c) = (x, y, z).
Proof. intros. now subst. Qed.

Ltac vring := repeat intros [[? ?] ?]; cbn [vadd vsub vopp cross vzero]; unfold vzero; apply vec_eq; ring.

Lemma vadd_comm : forall p q, vadd p q = vadd q p. Proof. vring. Qed.
Lemma vadd_assoc : forall p q r, vadd p (vadd q r) = vadd (vadd p q) r. Proof. vring. Qed.
Lemma vadd_zero : forall p, vadd vzero p = p. Proof. vring. Qed.
Lemma vadd_opp : forall p, vadd p (vopp p) = vzero. Proof. vring. Qed.
Lemma cross_anti : forall p q, cross p q = vopp (cross q p). Proof. vring. Qed.
Lemma triangle_edges_area : forall p q r, cross (vsub q p) (vsub r p) = vadd (cross p q) (vadd (cross q r) (vadd (cross r p) vzero)).
Proof. vring. Qed.

Lemma area_edges : forall l, vsum triangle_area l = vsum (fun e => cross (fst e) (snd e)) (triangle_edges l).
Proof.
  induction l as [|[[p q] r] l IH]; [reflexivity|]. cbn [vsum fold_right]. fold (vsum triangle_area l). rewrite IH.
  cbn [triangle_edges flat_map app fold_right fst snd]. fold (triangle_edges l).
  change (fold_right (fun a s => vadd (cross (fst a) (snd a)) s) vzero (triangle_edges l)) with (vsum (fun e => cross (fst e) (snd e)) (triangle_edges l)).
  unfold triangle_area. rewrite triangle_edges_area. rewrite <- !vadd_assoc, vadd_zero. reflexivity.
Qed.

Lemma vsum_flat : forall A B (v : B -> vec) (g : A -> list B) l, vsum v (flat_map g l) = vsum (fun a => vsum v (g a)) l.
Proof. intros A B v g l. apply (sum_flat vzero vadd vadd_assoc vadd_zero). Qed.

Section Nth.
Context (dbg : bool) (input : bytes) (set : object_set) (Hf : fits input) (Hok : parse dbg input = Ok set).
Context (f : obj_file) (Hs : says input f) (i : nat) (ob : object) (n : bytes) (ss : list statement).
Context (Hob : nth_error (objects set) i = Some ob) (Hss : nth_error (file_objects f) i = Some (n, ss)).

Lemma nth_area :
  vsum triangle_area (triangles (map (fun e => draw_map (fun c => place (get_vtn_triple ob c)) (draw_element e)) (element_set ob))) =
  vsum (fun rs => polygon_area (map (fun r => place (lookup f r)) rs)) (polygons ss).
Proof.
  destruct (nth_resolved _ _ _ Hf Hok _ Hs _ _ _ _ Hob Hss) as [E _].
  assert (E' : map (fun e => draw_map (fun c => place (get_vtn_triple ob c)) (draw_element e)) (element_set ob) =
               map (draw_map (fun r => place (lookup f r))) (flat_map written ss)).
  { transitivity (map (draw_map place) (map (fun e => draw_map (get_vtn_triple ob) (draw_element e)) (element_set ob))).
    - rewrite map_map. apply map_ext. intros e. now destruct (draw_element e).
    - rewrite E, map_map. apply map_ext. now intros []. }
  rewrite E', area_edges.
  etransitivity; [apply (surface_boundary vzero vadd vopp vadd_comm vadd_assoc vadd_zero vadd_opp cross cross_anti);
    eapply nth_polygonal; eauto|].
  change (sum vzero vadd (edge cross)) with (vsum (fun e : vec * vec => cross (fst e) (snd e))).
  rewrite vsum_flat. unfold vsum at 1. apply (sum_map vzero vadd).
Qed.
End Nth.
