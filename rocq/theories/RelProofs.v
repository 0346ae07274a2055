(** Two runs of the same parser code.

    [rel m1 m2]: started in related states, the two computations give the same
    outcome and related states - unless the first one ends in a way that
    [escape] allows, or gets [lost].  These instances are used:
    - the parser over the lexer and the parser over the list of tokens;
    - the same parser with less and with more loop fuel ([escape] = out of fuel);
    - the debug and the release build ([escape] = overflow or failed assertion);
    - two token lists with a common prefix ([lost] = the prefix is used up). *)
From Verif Require Import ObjModel MtlModel.
Local Open Scope list_scope.

Inductive abort := APanic (p : panic) | ADiverge.

Definition aborts {E A} (o : outcome E A) (a : abort) : Prop :=
  match a with
  | APanic p => o = Panic p
  | ADiverge => o = Diverge
  end.

Section Rel.
Context {S1 S2 : token_source}.
Context (R : ts_state S1 -> ts_state S2 -> Prop) (escape : abort -> Prop)
  (lost : ts_state S1 -> Prop).
Context (fuel1 fuel2 : nat) (dbg1 dbg2 : bool).

Context (R_peek : forall a b, R a b -> lost (snd (ts_peek S1 a)) \/
  (fst (ts_peek S1 a) = fst (ts_peek S2 b) /\ R (snd (ts_peek S1 a)) (snd (ts_peek S2 b)))).
Context (R_next : forall a b, R a b -> lost (snd (ts_next S1 a)) \/
  (fst (ts_next S1 a) = fst (ts_next S2 b) /\ R (snd (ts_next S1 a)) (snd (ts_next S2 b)))).
Context (lost_peek : forall a, lost a -> lost (snd (ts_peek S1 a))).
Context (lost_next : forall a, lost a -> lost (snd (ts_next S1 a))).
Context (H_fuel : fuel1 = fuel2 \/ (fuel1 <= fuel2 /\ escape ADiverge)).
Context (H_dbg : dbg1 = dbg2 \/
  (dbg1 = true /\ dbg2 = false /\ escape (APanic PanicOverflow) /\ escape (APanic PanicAssert))).

Definition related (p1 : parser S1) (p2 : parser S2) : Prop :=
  line_number p1 = line_number p2 /\ R (lexer_state p1) (lexer_state p2).

Definition stray (p : parser S1) : Prop := lost (lexer_state p).

Definition rel {K A} (m1 : M S1 K A) (m2 : M S2 K A) : Prop :=
  (forall p, stray p -> stray (snd (m1 p))) /\
  forall p1 p2, related p1 p2 ->
    (exists x, escape x /\ aborts (fst (m1 p1)) x) \/ stray (snd (m1 p1)) \/
    (fst (m1 p1) = fst (m2 p2) /\ related (snd (m1 p1)) (snd (m2 p2))).

Lemma rel_ret : forall K A (a : A), rel (K := K) (ret a) (ret a).
Proof. intros K A a. split; auto. Qed.

Lemma rel_bind : forall K A B (m1 : M S1 K A) m2 (f1 : A -> M S1 K B) f2,
  rel m1 m2 -> (forall a, rel (f1 a) (f2 a)) -> rel (bind m1 f1) (bind m2 f2).
Proof.
  intros K A B m1 m2 f1 f2 [Hk Hm] Hf.
  assert (Kf : forall p, stray (snd (m1 p)) -> stray (snd (bind m1 f1 p))).
  { intros p H. unfold bind. destruct (m1 p) as [[a|e|x|] q]; auto. apply Hf; auto. }
  split; [intros p H; apply Kf; auto|].
  intros p1 p2 H.
  destruct (Hm p1 p2 H) as [(x & Hx & Ha)|[Hs|(Ho & Hr)]].
  - left. exists x. split; auto. unfold bind. destruct (m1 p1) as [o q1]. cbn in Ha.
    destruct x; cbn in *; subst; reflexivity.
  - right. left. apply Kf; auto.
  - unfold bind. destruct (m1 p1) as [o1 q1], (m2 p2) as [o2 q2]; cbn in Ho, Hr; subst o2.
    destruct o1; try (right; auto; fail). apply Hf; auto.
Qed.

Lemma rel_catch : forall K A (m1 : M S1 K A) m2, rel m1 m2 -> rel (catch m1) (catch m2).
Proof.
  intros K A m1 m2 [Hk Hm].
  assert (Kf : forall p, stray (snd (m1 p)) -> stray (snd (catch m1 p))).
  { intros p H. unfold catch. destruct (m1 p) as [[a|e|x|] q]; auto. }
  split; [intros p H; apply Kf; auto|].
  intros p1 p2 H.
  destruct (Hm p1 p2 H) as [(x & Hx & Ha)|[Hs|(Ho & Hr)]].
  - left. exists x. split; auto. unfold catch. destruct (m1 p1) as [o q1]. cbn in Ha.
    destruct x; cbn in *; subst; reflexivity.
  - right. left. apply Kf; auto.
  - right. right. unfold catch. destruct (m1 p1) as [o1 q1], (m2 p2) as [o2 q2]; cbn in Ho, Hr; subst o2.
    destruct o1; auto.
Qed.

Lemma rel_from_result : forall K A (r : A + parse_error K), rel (from_result r) (from_result r).
Proof. intros K A [a|e]; split; auto. Qed.

Lemma rel_panics : forall K A x, rel (K := K) (A := A) (panics x) (panics x).
Proof. intros K A x. split; auto. Qed.

Lemma rel_diverge : forall K A, rel (K := K) (A := A) diverge diverge.
Proof. intros K A. split; auto. Qed.

Lemma rel_error : forall K A (k : K) msg, rel (A := A) (error k msg) (error k msg).
Proof.
  intros K A k msg. split; auto. intros p1 p2 (Hl & Hr). right. right. unfold error. cbn. rewrite Hl.
  split; auto. split; auto.
Qed.

Lemma rel_peek : forall K, rel (K := K) peek peek.
Proof.
  intros K. split.
  - intros p H. apply lost_peek in H. unfold peek. destruct (ts_peek S1 (lexer_state p)). exact H.
  - intros p1 p2 (Hl & Hr). right. unfold peek.
    destruct (R_peek _ _ Hr) as [Hs|(Ho & Hs)];
    destruct (ts_peek S1 (lexer_state p1)) as [t1 s1], (ts_peek S2 (lexer_state p2)) as [t2 s2].
    + left. exact Hs.
    + right. cbn in *. subst. split; auto. split; auto.
Qed.

Lemma rel_next : forall K, rel (K := K) next next.
Proof.
  intros K. split.
  - intros p H. apply lost_next in H. unfold next. destruct (ts_next S1 (lexer_state p)). exact H.
  - intros p1 p2 (Hl & Hr). right. unfold next.
    destruct (R_next _ _ Hr) as [Hs|(Ho & Hs)];
    destruct (ts_next S1 (lexer_state p1)) as [t1 s1], (ts_next S2 (lexer_state p2)) as [t2 s2].
    + left. exact Hs.
    + right. cbn in *. subst. split; auto. split; auto. cbn. now rewrite Hl.
Qed.

Lemma rel_advance : forall K, rel (K := K) advance advance.
Proof. intros K. apply rel_bind; auto using rel_next, rel_ret. Qed.

Lemma rel_index : forall K A (v : list A) i, rel (K := K) (index v i) (index v i).
Proof. intros. unfold index. destruct (nth_error v i); auto using rel_ret, rel_panics. Qed.

Lemma rel_stops : forall K A x (m : M S2 K A), escape (APanic x) -> rel (panics x) m.
Proof. intros K A x m He. split; auto. intros p1 p2 H. left. exists (APanic x). split; auto. reflexivity. Qed.

Lemma rel_loop_le : forall K A B n1 n2 (b1 : A -> M S1 K (step A B)) b2 a,
  n1 = n2 \/ (n1 <= n2 /\ escape ADiverge) ->
  (forall a, rel (b1 a) (b2 a)) -> rel (loop n1 b1 a) (loop n2 b2 a).
Proof.
  intros K A B n1 n2 b1 b2 a Hn Hb. revert n2 a Hn.
  induction n1 as [|n1 IH]; intros n2 a Hn.
  - destruct Hn as [<-|(_ & He)].
    + apply rel_diverge.
    + split; auto. intros p1 p2 H. left. exists ADiverge. split; auto. reflexivity.
  - destruct n2 as [|n2]; [exfalso; destruct Hn as [H|[H _]]; lia|].
    cbn [loop]. apply rel_bind; auto. intros [a'|b]; auto using rel_ret.
    apply IH. destruct Hn as [H|[H He]]; [left; lia|right; split; auto; lia].
Qed.

Lemma rel_loop : forall K A B (b1 : A -> M S1 K (step A B)) b2 a,
  (forall a, rel (b1 a) (b2 a)) -> rel (loop fuel1 b1 a) (loop fuel2 b2 a).
Proof. intros. apply rel_loop_le; auto. Qed.

Lemma rel_for_each : forall K A X (xs : list X) (b1 : A -> X -> M S1 K A) b2 a,
  (forall a x, rel (b1 a x) (b2 a x)) -> rel (for_each xs b1 a) (for_each xs b2 a).
Proof.
  intros K A X xs b1 b2 a Hb. revert a.
  induction xs as [|x xs IH]; intros a; cbn; auto using rel_ret, rel_bind.
Qed.

Lemma rel_len_minus : forall K A (v : list A) n,
  rel (K := K) (len_minus dbg1 v n) (len_minus dbg2 v n).
Proof.
  intros. unfold len_minus. destruct (n <=? length v); [apply rel_ret|].
  destruct H_dbg as [->|(-> & -> & Ho & Ha)]; [apply rel_panics|].
  apply rel_stops; auto.
Qed.

Lemma rel_isize_sub : forall K a b, rel (K := K) (isize_sub dbg1 a b) (isize_sub dbg2 a b).
Proof.
  intros. unfold isize_sub. destruct (in_isize (a - b)); [apply rel_ret|].
  destruct H_dbg as [->|(-> & -> & Ho & Ha)].
  - destruct dbg2; auto using rel_panics, rel_ret.
  - apply rel_stops; auto.
Qed.

Lemma rel_debug_assert : forall K b, rel (K := K) (debug_assert dbg1 b) (debug_assert dbg2 b).
Proof.
  intros. unfold debug_assert. destruct H_dbg as [->|(-> & -> & Ho & Ha)].
  - destruct (dbg2 && negb b); auto using rel_panics, rel_ret.
  - destruct b; cbn; [apply rel_ret|].
    apply rel_stops; auto.
Qed.

(** Walks through a pair of identical computations. *)
Ltac rel_walk :=
  repeat (cbn zeta; first
    [ assumption
    | solve [auto with rel]
    | apply rel_ret | apply rel_error | apply rel_peek | apply rel_next | apply rel_advance
    | apply rel_from_result | apply rel_panics | apply rel_index | apply rel_len_minus
    | apply rel_isize_sub | apply rel_debug_assert
    | apply rel_catch
    | apply rel_loop; intros ?
    | apply rel_for_each; intros ? ?
    | apply rel_bind; [|intros ?]
    | match goal with
      | |- rel (match ?x with _ => _ end) _ => destruct x
      | |- rel (let '(_, _) := ?x in _) _ => destruct x
      end ]).

Create HintDb rel.

Lemma rel_skip_zero : forall K,
  rel (K := K) (skip_zero_or_more_newlines fuel1) (skip_zero_or_more_newlines fuel2).
Proof. intros. unfold skip_zero_or_more_newlines. rel_walk. Qed.
Hint Resolve rel_skip_zero : rel.

(** ** src/obj.rs *)

Ltac rel_obj f := intros; unfold f; rel_walk.

Lemma rel_triangulate : forall es v,
  rel (triangulate dbg1 es v) (triangulate dbg2 es v).
Proof. rel_obj @triangulate. Qed.
Lemma rel_verify : forall v, rel (verify_vtn_indices v) (verify_vtn_indices v).
Proof. rel_obj @verify_vtn_indices. Qed.
Lemma rel_next_string : rel ObjModel.next_string ObjModel.next_string.
Proof. rel_obj @ObjModel.next_string. Qed.
Lemma rel_expect_tag : forall t, rel (ObjModel.expect_tag t) (ObjModel.expect_tag t).
Proof. rel_obj @ObjModel.expect_tag. Qed.
Hint Resolve rel_triangulate rel_verify rel_next_string rel_expect_tag : rel.
Lemma rel_parse_f64 : rel ObjModel.parse_f64 ObjModel.parse_f64.
Proof. rel_obj @ObjModel.parse_f64. Qed.
Lemma rel_expected_integer : forall A st,
  rel (A := A) (error_expected_integer st) (error_expected_integer st).
Proof. rel_obj @error_expected_integer. Qed.
Hint Resolve rel_parse_f64 rel_expected_integer : rel.
Lemma rel_parse_isize : rel ObjModel.parse_isize ObjModel.parse_isize.
Proof. rel_obj @ObjModel.parse_isize. Qed.
Lemma rel_try_once : forall T (f : bytes -> option T), rel (try_once f) (try_once f).
Proof. rel_obj @try_once. Qed.
Hint Resolve rel_parse_isize rel_try_once : rel.
Lemma rel_parse_vertex : rel parse_vertex parse_vertex.
Proof. rel_obj @parse_vertex. Qed.
Lemma rel_parse_texture_vertex : rel parse_texture_vertex parse_texture_vertex.
Proof. rel_obj @parse_texture_vertex. Qed.
Lemma rel_parse_normal_vertex : rel parse_normal_vertex parse_normal_vertex.
Proof. rel_obj @parse_normal_vertex. Qed.
Lemma rel_skip_one : rel (skip_one_or_more_newlines fuel1) (skip_one_or_more_newlines fuel2).
Proof. rel_obj @skip_one_or_more_newlines. Qed.
Hint Resolve rel_parse_vertex rel_parse_texture_vertex rel_parse_normal_vertex rel_skip_one : rel.
Lemma rel_parse_object_name : rel (parse_object_name fuel1) (parse_object_name fuel2).
Proof. rel_obj @parse_object_name. Qed.
Lemma rel_calculate_index : forall r z,
  rel (calculate_index dbg1 r z) (calculate_index dbg2 r z).
Proof. intros [lo hi] z. unfold calculate_index. rel_walk. Qed.
Hint Resolve rel_parse_object_name rel_calculate_index : rel.
Lemma rel_process_split : forall s r, rel (process_split dbg1 s r) (process_split dbg2 s r).
Proof. rel_obj @process_split. Qed.
Hint Resolve rel_process_split : rel.
Lemma rel_process_next : forall s r, rel (process_next dbg1 s r) (process_next dbg2 s r).
Proof. rel_obj @process_next. Qed.
Hint Resolve rel_process_next : rel.
Lemma rel_parse_vtn_index : forall a b c,
  rel (parse_vtn_index dbg1 a b c) (parse_vtn_index dbg2 a b c).
Proof. rel_obj @parse_vtn_index. Qed.
Hint Resolve rel_parse_vtn_index : rel.
Lemma rel_parse_vtn_indices : forall v a b c,
  rel (parse_vtn_indices dbg1 fuel1 v a b c) (parse_vtn_indices dbg2 fuel2 v a b c).
Proof. rel_obj @parse_vtn_indices. Qed.
Hint Resolve rel_parse_vtn_indices : rel.
Lemma rel_parse_point : forall es a,
  rel (parse_point dbg1 fuel1 es a) (parse_point dbg2 fuel2 es a).
Proof. rel_obj @parse_point. Qed.
Lemma rel_parse_line : forall es a b c,
  rel (parse_line dbg1 fuel1 es a b c) (parse_line dbg2 fuel2 es a b c).
Proof. rel_obj @parse_line. Qed.
Lemma rel_parse_face : forall es a b c,
  rel (parse_face dbg1 fuel1 es a b c) (parse_face dbg2 fuel2 es a b c).
Proof. rel_obj @parse_face. Qed.
Hint Resolve rel_parse_point rel_parse_line rel_parse_face : rel.
Lemma rel_parse_elements : forall es a b c,
  rel (parse_elements dbg1 fuel1 es a b c) (parse_elements dbg2 fuel2 es a b c).
Proof. rel_obj @parse_elements. Qed.
Lemma rel_names : forall ns,
  rel (names_until_newline fuel1 ns) (names_until_newline fuel2 ns).
Proof. rel_obj @names_until_newline. Qed.
Hint Resolve rel_parse_elements rel_names : rel.
Lemma rel_parse_groups : forall gs, rel (parse_groups fuel1 gs) (parse_groups fuel2 gs).
Proof. rel_obj @parse_groups. Qed.
Lemma rel_parse_smoothing_group : forall gs,
  rel (parse_smoothing_group gs) (parse_smoothing_group gs).
Proof. rel_obj @parse_smoothing_group. Qed.
Lemma rel_parse_material_name : forall ns,
  rel (parse_material_name ns) (parse_material_name ns).
Proof. rel_obj @parse_material_name. Qed.
Lemma rel_parse_shape_entries : forall es t1 t2,
  rel (parse_shape_entries dbg1 es t1 t2) (parse_shape_entries dbg2 es t1 t2).
Proof. rel_obj @parse_shape_entries. Qed.
Lemma rel_parse_geometries : forall t ns, rel (parse_geometries t ns) (parse_geometries t ns).
Proof. rel_obj @parse_geometries. Qed.
Hint Resolve rel_parse_groups rel_parse_smoothing_group rel_parse_material_name
  rel_parse_shape_entries rel_parse_geometries : rel.
Lemma rel_object_g : forall g, rel (parse_object_g fuel1 g) (parse_object_g fuel2 g).
Proof. rel_obj @parse_object_g. Qed.
Lemma rel_object_s : forall s, rel (parse_object_s s) (parse_object_s s).
Proof. rel_obj @parse_object_s. Qed.
Lemma rel_object_usemtl : forall m, rel (parse_object_usemtl m) (parse_object_usemtl m).
Proof. rel_obj @parse_object_usemtl. Qed.
Lemma rel_object_v : forall st, rel (parse_object_v st) (parse_object_v st).
Proof. rel_obj @parse_object_v. Qed.
Lemma rel_object_vt : forall st, rel (parse_object_vt st) (parse_object_vt st).
Proof. rel_obj @parse_object_vt. Qed.
Lemma rel_object_vn : forall st, rel (parse_object_vn st) (parse_object_vn st).
Proof. rel_obj @parse_object_vn. Qed.
Lemma rel_object_element : forall st,
  rel (parse_object_element dbg1 fuel1 st) (parse_object_element dbg2 fuel2 st).
Proof. intros. unfold parse_object_element. cbv zeta. apply rel_bind; [|intros [? ?]]; rel_walk. Qed.
Hint Resolve rel_object_g rel_object_s rel_object_usemtl rel_object_v rel_object_vt
  rel_object_vn rel_object_element : rel.
Lemma rel_object_body : forall st,
  rel (parse_object_body dbg1 fuel1 st) (parse_object_body dbg2 fuel2 st).
Proof. rel_obj @parse_object_body. Qed.
Hint Resolve rel_object_body : rel.
Lemma rel_parse_object : forall r,
  rel (parse_object dbg1 fuel1 r) (parse_object dbg2 fuel2 r).
Proof. rel_obj @parse_object. Qed.
Hint Resolve rel_parse_object : rel.
Lemma rel_parse_objects : rel (parse_objects dbg1 fuel1) (parse_objects dbg2 fuel2).
Proof. rel_obj @parse_objects. Qed.
Lemma rel_parse_material_library_line : forall ls,
  rel (parse_material_library_line fuel1 ls) (parse_material_library_line fuel2 ls).
Proof. rel_obj @parse_material_library_line. Qed.
Hint Resolve rel_parse_objects rel_parse_material_library_line : rel.
Lemma rel_parse_material_libraries :
  rel (parse_material_libraries fuel1) (parse_material_libraries fuel2).
Proof. rel_obj @parse_material_libraries. Qed.
Hint Resolve rel_parse_material_libraries : rel.
Lemma rel_parse_objset : rel (parse_objset dbg1 fuel1) (parse_objset dbg2 fuel2).
Proof. rel_obj @parse_objset. Qed.

(** ** src/mtl.rs *)

Lemma rel_mtl_next_string : rel MtlModel.next_string MtlModel.next_string.
Proof. rel_obj @MtlModel.next_string. Qed.
Lemma rel_mtl_expect_tag : forall t, rel (MtlModel.expect_tag t) (MtlModel.expect_tag t).
Proof. rel_obj @MtlModel.expect_tag. Qed.
Hint Resolve rel_mtl_next_string rel_mtl_expect_tag : rel.
Lemma rel_mtl_parse_f64 : rel MtlModel.parse_f64 MtlModel.parse_f64.
Proof. rel_obj @MtlModel.parse_f64. Qed.
Lemma rel_mtl_parse_usize : rel MtlModel.parse_usize MtlModel.parse_usize.
Proof. rel_obj @MtlModel.parse_usize. Qed.
Hint Resolve rel_mtl_parse_f64 rel_mtl_parse_usize : rel.
Lemma rel_parse_color : rel parse_color parse_color.
Proof. rel_obj @parse_color. Qed.
Lemma rel_parse_map_name : rel parse_map_name parse_map_name.
Proof. rel_obj @parse_map_name. Qed.
Lemma rel_parse_illumination_model : rel parse_illumination_model parse_illumination_model.
Proof. rel_obj @parse_illumination_model. Qed.
Lemma rel_parse_newmtl : rel parse_newmtl parse_newmtl.
Proof. rel_obj @parse_newmtl. Qed.
Hint Resolve rel_parse_color rel_parse_map_name rel_parse_illumination_model rel_parse_newmtl : rel.
Lemma rel_parse_material_body : forall m,
  rel (parse_material_body fuel1 m) (parse_material_body fuel2 m).
Proof.
  intros. unfold parse_material_body. cbv zeta. apply rel_bind; [apply rel_peek|intros t].
  repeat match goal with
  | |- rel (if ?b then _ else _) _ =>
      destruct b;
      [ unfold parse_ambient_component, parse_diffuse_component, parse_specular_component,
          parse_emissive_component, parse_dissolve_component, parse_specular_exponent,
          parse_optical_density, parse_map_ambient, parse_map_diffuse, parse_map_specular,
          parse_map_emissive, parse_map_specular_exponent, parse_map_bump,
          parse_map_displacement, parse_map_dissolve, parse_map_decal; rel_walk |]
  end.
  rel_walk.
Qed.
Hint Resolve rel_parse_material_body : rel.
Lemma rel_parse_material : rel (parse_material fuel1) (parse_material fuel2).
Proof. rel_obj @parse_material. Qed.
Hint Resolve rel_parse_material : rel.
Lemma rel_parse_mtlset : rel (parse_mtlset fuel1) (parse_mtlset fuel2).
Proof. rel_obj @parse_mtlset. Qed.

End Rel.

(** Runs that cannot get lost. *)
Definition nowhere {S} (_ : ts_state S) : Prop := False.

Section Sim.
Context {S1 S2 : token_source}.
Context (R : ts_state S1 -> ts_state S2 -> Prop) (escape : abort -> Prop).
Context (fuel1 fuel2 : nat) (dbg1 dbg2 : bool).

Context (R_peek : forall a b, R a b ->
  fst (ts_peek S1 a) = fst (ts_peek S2 b) /\ R (snd (ts_peek S1 a)) (snd (ts_peek S2 b))).
Context (R_next : forall a b, R a b ->
  fst (ts_next S1 a) = fst (ts_next S2 b) /\ R (snd (ts_next S1 a)) (snd (ts_next S2 b))).
Context (H_fuel : fuel1 = fuel2 \/ (fuel1 <= fuel2 /\ escape ADiverge)).
Context (H_dbg : dbg1 = dbg2 \/
  (dbg1 = true /\ dbg2 = false /\ escape (APanic PanicOverflow) /\ escape (APanic PanicAssert))).

Lemma sim_parse_objset : forall p1 p2, related R p1 p2 ->
  (exists x, escape x /\ aborts (fst (parse_objset dbg1 fuel1 p1)) x) \/
  (fst (parse_objset dbg1 fuel1 p1) = fst (parse_objset dbg2 fuel2 p2) /\
   related R (snd (parse_objset dbg1 fuel1 p1)) (snd (parse_objset dbg2 fuel2 p2))).
Proof.
  intros p1 p2 H.
  destruct (rel_parse_objset R escape nowhere fuel1 fuel2 dbg1 dbg2) as [_ Hm]; auto.
  destruct (Hm p1 p2 H) as [?|[[]|?]]; auto.
Qed.

Lemma sim_parse_mtlset : forall p1 p2, related R p1 p2 ->
  (exists x, escape x /\ aborts (fst (parse_mtlset fuel1 p1)) x) \/
  (fst (parse_mtlset fuel1 p1) = fst (parse_mtlset fuel2 p2) /\
   related R (snd (parse_mtlset fuel1 p1)) (snd (parse_mtlset fuel2 p2))).
Proof.
  intros p1 p2 H.
  destruct (rel_parse_mtlset R escape nowhere fuel1 fuel2) as [_ Hm]; auto.
  destruct (Hm p1 p2 H) as [?|[[]|?]]; auto.
Qed.

End Sim.
