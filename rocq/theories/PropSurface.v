(** C71: triangles and segments bound what the polygons and polylines of the
    file bound; C72: the triangles of convex polygons tile them. *)
From Coq Require Import ZArith Reals Lra Lia.
From Verif Require Import ObjModel ObjView SurfaceSpec AreaSpec LexerProofs ObjTop ObjMeaning SurfaceProofs AreaProofs TileSpec TileProofs HullProofs Demo ExampleText.
Local Open Scope list_scope.

(** Whatever is counted along edges, with the sign of the direction, is the same
    around the triangles and around the polygons. *)
Theorem C71_boundary : forall dbg input set, fits input -> parse dbg input = Ok set ->
  forall f, says input f -> forall i ob n ss,
  nth_error (objects set) i = Some ob -> nth_error (file_objects f) i = Some (n, ss) ->
  forall w : option vtn_triple -> option vtn_triple -> Z, (forall x y, w x y = (- w y x)%Z) ->
  total (fun e => w (fst e) (snd e)) (triangle_edges (triangles (map (fun e => draw_map (get_vtn_triple ob) (draw_element e)) (element_set ob)))) =
  total (fun e => w (fst e) (snd e)) (flat_map round (map (map (lookup f)) (polygons ss))).
Proof. exact nth_boundary. Qed.
Print Assumptions C71_boundary.

(** A closed surface stays closed, and an open one open. *)
Theorem C71_closed : forall dbg input set, fits input -> parse dbg input = Ok set ->
  forall f, says input f -> forall i ob n ss,
  nth_error (objects set) i = Some ob -> nth_error (file_objects f) i = Some (n, ss) ->
  closed (triangle_edges (triangles (map (fun e => draw_map index_vertex (draw_element e)) (element_set ob)))) <->
  closed (flat_map round (map (map ref_v) (polygons ss))).
Proof. exact nth_closed. Qed.
Print Assumptions C71_closed.

(** The triangles have the area, as a vector, of the polygons. *)
Theorem C71_area : forall dbg input set, fits input -> parse dbg input = Ok set ->
  forall f, says input f -> forall i ob n ss,
  nth_error (objects set) i = Some ob -> nth_error (file_objects f) i = Some (n, ss) ->
  vsum triangle_area (triangles (map (fun e => draw_map (fun c => place (get_vtn_triple ob c)) (draw_element e)) (element_set ob))) =
  vsum (fun rs => polygon_area (map (fun r => place (lookup f r)) rs)) (polygons ss).
Proof. exact nth_area. Qed.
Print Assumptions C71_area.

(** The segments run from the first to the last corner of the polylines. *)
Theorem C71_ends : forall dbg input set, fits input -> parse dbg input = Ok set ->
  forall f, says input f -> forall i ob n ss,
  nth_error (objects set) i = Some ob -> nth_error (file_objects f) i = Some (n, ss) ->
  forall v : option vtn_triple -> Z,
  total (fun e => (v (snd e) - v (fst e))%Z) (segments (map (fun e => draw_map (get_vtn_triple ob) (draw_element e)) (element_set ob))) =
  total (fun l => (v (last l None) - v (hd None l))%Z) (map (map (lookup f)) (polylines ss)).
Proof. exact nth_ends. Qed.
Print Assumptions C71_ends.

(** The corners of the elements are the references of the statements. *)
Theorem C71_used : forall dbg input set, fits input -> parse dbg input = Ok set ->
  forall f, says input f -> forall i ob n ss,
  nth_error (objects set) i = Some ob -> nth_error (file_objects f) i = Some (n, ss) ->
  forall c,
  (exists e, In e (element_set ob) /\ In c (corners (draw_element e))) <->
  (exists s r, In s ss /\ In r (referred s) /\ c = local_ref (base_of f i) r).
Proof. exact nth_used. Qed.
Print Assumptions C71_used.

Ltac says_it :=
  lazymatch goal with
  | |- says ?t ?f => exists (lex t); split; [apply lex_tokenizes|];
      let ts := eval vm_compute in (lex t) in change (lex t) with ts; read_file
  end.

(** A pyramid with a square at the bottom. *)
Definition pyramid : bytes := text "v 0 0 0|v 1 0 0|v 1 1 0|v 0 1 0|v 0 0 1|f 1 4 3 2|f 1 2 5|f 2 3 5|f 3 4 5|f 4 1 5|l 1 2 3|".
Definition pyramid_body : list statement :=
  let r k := mkRef k None None in
  let at_ x y z := SVertex (mkVertex (num x) (num y) (num z) (num "1")) in
  [at_ "0" "0" "0"; at_ "1" "0" "0"; at_ "1" "1" "0"; at_ "0" "1" "0"; at_ "0" "0" "1";
   SFace [r 1; r 4; r 3; r 2]; SFace [r 1; r 2; r 5]; SFace [r 2; r 3; r 5]; SFace [r 3; r 4; r 5]; SFace [r 4; r 1; r 5];
   SLine [r 1; r 2; r 3]]%string.
Definition pyramid_file : obj_file := mkObjFile [] [([], pyramid_body)].

(** Finitely many edges to look at. *)
Lemma closed_check : forall l,
  forallb (fun e => Nat.eqb (edge_count (fst e) (snd e) l) (edge_count (snd e) (fst e) l)) l = true -> closed l.
Proof.
  intros l H a b. rewrite forallb_forall in H.
  assert (K : forall x y, edge_count x y l <> 0 -> edge_count x y l = edge_count y x l).
  { intros x y N. assert (I : In (x, y) l).
    { unfold edge_count in N. destruct (filter _ l) as [|[u v] m] eqn:E; [cbn in N; congruence|].
      assert (I : In (u, v) (filter (fun e => Nat.eqb (fst e) x && Nat.eqb (snd e) y) l)) by (rewrite E; now left).
      apply filter_In in I. destruct I as [I C]. cbn [fst snd] in C. apply andb_prop in C. destruct C as [C1 C2].
      apply Nat.eqb_eq in C1, C2. subst. exact I. }
    apply H in I. now apply Nat.eqb_eq in I. }
  destruct (Nat.eq_dec (edge_count a b l) 0) as [E|N]; [|auto].
  destruct (Nat.eq_dec (edge_count b a l) 0) as [E'|N]; [congruence|]. symmetry. auto.
Qed.

Example C71_example : exists set ob,
  fits pyramid /\ parse false pyramid = Ok set /\ says pyramid pyramid_file /\
  nth_error (objects set) 0 = Some ob /\ nth_error (file_objects pyramid_file) 0 = Some ([], pyramid_body) /\
  length (element_set ob) = 8 /\
  closed (flat_map round (map (map ref_v) (polygons pyramid_body))) /\
  ~ closed (flat_map round (map (map ref_v) (polygons (removelast (removelast pyramid_body))))).
Proof.
  eexists. eexists. split; [vm_compute; discriminate|]. split; [vm_compute; reflexivity|]. split; [says_it|].
  split; [reflexivity|]. split; [reflexivity|]. split; [reflexivity|]. split.
  - apply closed_check. vm_compute. reflexivity.
  - intros H. specialize (H 1 4). vm_compute in H. discriminate H.
Qed.

Lemma value_0 : value (num "0") = 0%R.
Proof. replace (num "0") with (S754_zero false) by (vm_compute; reflexivity). reflexivity. Qed.

Ltac number_value m e := 
  match goal with |- value (num ?s) = _ => replace (num s) with (S754_finite false m e) by (vm_compute; reflexivity) end;
  unfold value, signed; cbn [powerRZ]; change 2%R with (IZR 2); rewrite pow_IZR;
  match goal with |- context [IZR (?a ^ ?b)] => let c := eval vm_compute in (a ^ b)%Z in change (a ^ b)%Z with c end; field; lra.

Lemma value_1 : value (num "1") = 1%R.
Proof. number_value 4503599627370496%positive (-52)%Z. Qed.
Lemma value_2 : value (num "2") = 2%R.
Proof. number_value 4503599627370496%positive (-51)%Z. Qed.
Lemma value_4 : value (num "4") = 4%R.
Proof. number_value 4503599627370496%positive (-50)%Z. Qed.

Definition refs (l : list nat) : list reference := map (fun k => mkRef k None None) l.

Lemma pyramid_square : map (fun r => place (lookup pyramid_file r)) (refs [1; 4; 3; 2]) = [(0, 0, 0); (0, 1, 0); (1, 1, 0); (1, 0, 0)]%R.
Proof. cbn -[num value]. rewrite value_0, value_1. reflexivity. Qed.

(** The area of the square is 1. *)
Example C71_area_example : polygon_area (map (fun r => place (lookup pyramid_file r)) (refs [1; 4; 3; 2])) = (0, 0, -2)%R.
Proof.
  rewrite pyramid_square. unfold polygon_area. cbn [round pairs combine tl app vsum fold_right fst snd cross vadd]. unfold vzero. cbn [vadd].
  apply vec_eq; ring.
Qed.

(** * C72 *)

(** The triangles of a convex polygon tile it. *)
Theorem C72_tiles : forall dbg input set, fits input -> parse dbg input = Ok set ->
  forall f, says input f -> forall i ob n ss,
  nth_error (objects set) i = Some ob -> nth_error (file_objects f) i = Some (n, ss) ->
  forall before rs after, ss = before ++ SFace rs :: after ->
  forall u, let l := map (fun r => place (lookup f r)) rs in flat u l -> convex u l ->
  exists front es back, element_set ob = front ++ es ++ back /\ length front = length (flat_map written before) /\
    length es = length rs - 2 /\
    tiles u l (triangles (map (fun e => draw_map (fun c => place (get_vtn_triple ob c)) (draw_element e)) es)).
Proof. exact nth_tiles. Qed.
Print Assumptions C72_tiles.

(** The bottom of the pyramid, seen from below. *)
Example C72_example :
  let l := map (fun r => place (lookup pyramid_file r)) (refs [1; 4; 3; 2]) in
  let u := (0, 0, -1)%R in
  flat u l /\ convex u l /\ exists before after, pyramid_body = before ++ SFace (refs [1; 4; 3; 2]) :: after.
Proof.
  cbv zeta. rewrite pyramid_square. split; [|split].
  - intros p q Hp Hq. cbn in Hp, Hq.
    repeat (destruct Hp as [<-|Hp]; [repeat (destruct Hq as [<-|Hq]; [cbn [dot vsub]; ring|]); destruct Hq|]). destruct Hp.
  - intros i j k a b c [L1 L2] Ha Hb Hc.
    assert (K : k < 4) by (destruct k as [|[|[|[|k]]]]; try lia; cbn in Hc; destruct k; discriminate Hc).
    destruct k as [|[|[|[|k]]]]; try lia; destruct j as [|[|[|j]]]; try lia; destruct i as [|[|i]]; try lia;
      cbn [nth_error] in Ha, Hb, Hc; injection Ha as <-; injection Hb as <-; injection Hc as <-;
      unfold turn; cbn [dot cross vsub]; lra.
  - exists (firstn 5 pyramid_body), (skipn 6 pyramid_body). reflexivity.
Qed.

(** Corners may also be repeated or lie on a line; the triangles then are part
    of that line or turn left. *)
Theorem C72_weakly_convex : forall dbg input set, fits input -> parse dbg input = Ok set ->
  forall f, says input f -> forall i ob n ss,
  nth_error (objects set) i = Some ob -> nth_error (file_objects f) i = Some (n, ss) ->
  forall before rs after, ss = before ++ SFace rs :: after ->
  forall u, let l := map (fun r => place (lookup f r)) rs in u <> vzero -> flat u l -> weakly_convex u l ->
  exists front es back, element_set ob = front ++ es ++ back /\ length front = length (flat_map written before) /\
    length es = length rs - 2 /\
    weakly_tiles u l (triangles (map (fun e => draw_map (fun c => place (get_vtn_triple ob c)) (draw_element e)) es)).
Proof. exact nth_weak. Qed.
Print Assumptions C72_weakly_convex.

(** For a convex polygon the two descriptions of its points are the same. *)
Theorem C72_polygon_is_hull : forall u l p, (3 <= length l)%nat -> flat u l -> convex u l -> in_polygon u l p <-> in_hull l p.
Proof. exact polygon_hull. Qed.
Print Assumptions C72_polygon_is_hull.

(** A square with one more corner in the middle of an edge, and one corner twice. *)
Definition at_ (x y : string) : statement := SVertex (mkVertex (num x) (num y) (num "0") (num "1")).
Definition square_text : bytes := text "v 0 0 0|v 1 0 0|v 2 0 0|v 2 2 0|v 0 2 0|f 1 2 3 4 4 5|".
Definition square_file : obj_file :=
  mkObjFile [] [([], [at_ "0" "0"; at_ "1" "0"; at_ "2" "0"; at_ "2" "2"; at_ "0" "2"] ++ [SFace (refs [1; 2; 3; 4; 4; 5])])].

Example C72_weakly_convex_example :
  says square_text square_file /\ (exists set, parse false square_text = Ok set) /\
  let l := map (fun r => place (lookup square_file r)) (refs [1; 2; 3; 4; 4; 5]) in
  let u := (0, 0, 1)%R in
  flat u l /\ weakly_convex u l /\ ~ convex u l.
Proof.
  split; [unfold square_file, at_; cbn [app]; says_it|]. split; [eexists; vm_compute; reflexivity|]. cbv zeta.
  assert (E : map (fun r => place (lookup square_file r)) (refs [1; 2; 3; 4; 4; 5]) =
    [(0, 0, 0); (1, 0, 0); (2, 0, 0); (2, 2, 0); (2, 2, 0); (0, 2, 0)]%R).
  { unfold square_file, at_. cbn -[num value]. rewrite value_0, value_1, value_2. reflexivity. }
  rewrite E. split; [|split].
  - intros p q Hp Hq. cbn in Hp, Hq.
    repeat (destruct Hp as [<-|Hp]; [repeat (destruct Hq as [<-|Hq]; [cbn [dot vsub]; ring|]); destruct Hq|]). destruct Hp.
  - intros i j k a b c [L1 L2] Ha Hb Hc.
    assert (K : k < 6) by (destruct k as [|[|[|[|[|[|k]]]]]]; try lia; cbn in Hc; destruct k; discriminate Hc).
    destruct k as [|[|[|[|[|[|k]]]]]]; try lia; destruct j as [|[|[|[|[|j]]]]]; try lia; destruct i as [|[|[|[|i]]]]; try lia;
      cbn [nth_error] in Ha, Hb, Hc; injection Ha as <-; injection Hb as <-; injection Hc as <-;
      unfold turn; cbn [dot cross vsub]; lra.
  - intros H. specialize (H 0 1 2 (0, 0, 0)%R (1, 0, 0)%R (2, 0, 0)%R). unfold turn in H. cbn [dot cross vsub] in H.
    assert (0 < 1 < 2) by lia. specialize (H H0 eq_refl eq_refl eq_refl). lra.
Qed.

(** README.md also allows coplanar concave polygons: their triangles can
    be turned over, and lie outside. *)
Definition arrow : bytes := text "v 0 0 0|v 2 1 0|v 4 0 0|v 2 4 0|f 1 2 3 4|".

Theorem C72_concave_refuted :
  ~ (forall input set f ob n before rs after u, fits input -> parse false input = Ok set -> says input f ->
       nth_error (objects set) 0 = Some ob -> nth_error (file_objects f) 0 = Some (n, before ++ SFace rs :: after) ->
       let l := map (fun r => place (lookup f r)) rs in flat u l -> (0 < dot u (polygon_area l))%R ->
       exists front es back, element_set ob = front ++ es ++ back /\ length front = length (flat_map written before) /\
         length es = length rs - 2 /\
         forall a b c, In (a, b, c) (triangles (map (fun e => draw_map (fun c => place (get_vtn_triple ob c)) (draw_element e)) es)) ->
           (0 < turn u a b c)%R).
Proof.
  intro H.
  set (at_ x y := SVertex (mkVertex (num x) (num y) (num "0") (num "1"))).
  set (before := [at_ "0" "0"; at_ "2" "1"; at_ "4" "0"; at_ "2" "4"]%string).
  set (f := mkObjFile [] [([], before ++ [SFace (refs [1; 2; 3; 4])])]).
  assert (P : exists set ob, parse false arrow = Ok set /\ nth_error (objects set) 0 = Some ob /\
    element_set ob = [Face (V 0) (V 1) (V 2); Face (V 0) (V 2) (V 3)] /\
    vertex_set ob = [mkVertex (num "0") (num "0") (num "0") (num "1"); mkVertex (num "2") (num "1") (num "0") (num "1");
                     mkVertex (num "4") (num "0") (num "0") (num "1"); mkVertex (num "2") (num "4") (num "0") (num "1")]).
  { eexists. eexists. split; [vm_compute; reflexivity|]. split; [reflexivity|]. split; vm_compute; reflexivity. }
  destruct P as (set & ob & P & Po & Pe & Pv).
  assert (L : map (fun r => place (lookup f r)) (refs [1; 2; 3; 4]) = [(0, 0, 0); (2, 1, 0); (4, 0, 0); (2, 4, 0)]%R).
  { unfold f, before, at_. cbn -[num value]. rewrite value_0, value_1, value_2, value_4. reflexivity. }
  destruct (H arrow set f ob [] before (refs [1; 2; 3; 4]) [] (0, 0, 1)%R) as (front & es & back & E & Ef & Es & T); auto.
  - vm_compute. discriminate.
  - unfold f, before, at_. cbn [app]. says_it.
  - rewrite L. intros p q Hp Hq. cbn in Hp, Hq.
    repeat (destruct Hp as [<-|Hp]; [repeat (destruct Hq as [<-|Hq]; [cbn [dot vsub]; ring|]); destruct Hq|]). destruct Hp.
  - rewrite L. unfold polygon_area. cbn [round pairs combine tl app vsum fold_right fst snd cross vadd]. unfold vzero. cbn [vadd dot]. lra.
  - cbn in Ef. destruct front; [|discriminate Ef]. rewrite Pe in E. cbn in Es.
    destruct es as [|e1 [|e2 [|]]]; try discriminate Es. cbn [app] in E. injection E as <- <- _.
    assert (G : forall k, get_vtn_triple ob (V k) = option_map TripleV (nth_error (vertex_set ob) k)).
    { intros k. unfold get_vtn_triple. destruct (nth_error (vertex_set ob) k); reflexivity. }
    cbn [map draw_element draw_map] in T. rewrite !G, Pv in T. cbn [nth_error option_map place vx vy vz] in T.
    rewrite value_0, value_1, value_2, value_4 in T. specialize (T _ _ _ (or_introl eq_refl)).
    unfold turn in T. cbn [dot cross vsub] in T. lra.
Qed.
Print Assumptions C72_concave_refuted.
