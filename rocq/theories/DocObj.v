(** Files as docs/obj_spec.pdf describes them. *)
From Verif Require Import ObjModel DocObjSpec ObjWriteSpec LexerProofs ObjTop ObjFacts ObjWrite.
Local Open Scope list_scope.

(** * Translation *)

Definition to_ref (r : doc_ref) : reference :=
  mkRef (Z.to_nat (dr_v r)) (option_map Z.to_nat (dr_t r)) (option_map Z.to_nat (dr_n r)).

Definition to_st (s : doc_statement) : statement :=
  match s with
  | DocVertex v => SVertex v
  | DocTexture v => STexture v
  | DocNormal v => SNormal v
  | DocPoint ks => SPoint (map Z.to_nat ks)
  | DocLine rs => SLine (map to_ref rs)
  | DocFace rs => SFace (map to_ref rs)
  | DocGroup names => SGroup names
  | DocSmooth n => SSmooth n
  | DocUse m => SUse m
  | DocObject _ | DocLibrary _ => SGroup []
  end.

Definition to_ob (o : bytes * list doc_statement) : bytes * list statement := (fst o, map to_st (snd o)).

Definition to_obs (x : list doc_statement * list (bytes * list doc_statement)) : list (bytes * list statement) :=
  let (body, os) := x in
  match body with
  | [] => map to_ob os
  | _ => ([], map to_st body) :: map to_ob os
  end.

(** ** References *)

Definition refs_of (s : doc_statement) : list doc_ref :=
  match s with
  | DocPoint ks => map (fun k => mkDocRef k None None) ks
  | DocLine rs | DocFace rs => rs
  | _ => []
  end.

Lemma in_pairs : forall A (l : list A) a b, In (a, b) (pairs l) -> In a l /\ In b l.
Proof.
  intros A l a b H. unfold pairs in H. split; [now apply in_combine_l in H|]. apply in_combine_r in H.
  destruct l; [destruct H|now right].
Qed.

Lemma pairs_cover : forall A (l : list A) a, In a l -> 2 <= length l -> exists p, In p (pairs l) /\ (a = fst p \/ a = snd p).
Proof.
  induction l as [|x [|y l] IH]; cbn [length]; intros a H L; [destruct H|lia|].
  destruct H as [<-|H].
  - exists (x, y). split; [now left|now left].
  - destruct l as [|z l].
    + destruct H as [<-|[]]. exists (x, y). split; [now left|now right].
    + destruct (IH a H) as (p & Hp & Ha); [cbn; lia|]. exists p. split; [|exact Ha]. right. exact Hp.
Qed.

Lemma shapes_refs : forall (P : doc_ref -> Prop) s, obj_documented s ->
  Forall (fun x => Forall P (corners x)) (doc_shapes s) -> Forall P (refs_of s).
Proof.
  intros P s Hd H. rewrite Forall_forall in *. intros r Hr.
  destruct s; cbn [refs_of doc_shapes obj_documented] in *; try destruct Hr.
  - apply in_map_iff in Hr. destruct Hr as (k & <- & Hk).
    specialize (H (DPoint (mkDocRef k None None))). cbn [corners] in H.
    assert (K := H ltac:(apply in_map_iff; eauto)). now inversion K.
  - destruct Hd as [Hl _]. destruct (pairs_cover _ _ _ Hr Hl) as ((a & b) & Hp & Ha).
    specialize (H (DLine a b) ltac:(apply in_map_iff; exists (a, b); auto)). cbn [corners fst snd] in *.
    inversion H as [|? ? H1 H2]; subst. inversion H2; subst. destruct Ha as [->| ->]; auto.
  - destruct Hd as [Hl _]. destruct rs as [|r0 rs]; [destruct Hr|]. cbn [length] in Hl.
    assert (K : forall b c, In (b, c) (pairs rs) -> P r0 /\ P b /\ P c).
    { intros b c Hp. specialize (H (DFace r0 b c) ltac:(apply in_map_iff; exists (b, c); auto)). cbn [corners] in H.
      inversion H as [|? ? H1 H2]; subst. inversion H2 as [|? ? H3 H4]; subst. inversion H4; subst. auto. }
    destruct Hr as [<-|Hr].
    + destruct rs as [|r1 [|r2 rs]]; cbn [length] in Hl; try lia. eapply (K r1 r2). now left.
    + destruct (pairs_cover _ _ _ Hr ltac:(lia)) as ((b & c) & Hp & Ha). destruct (K _ _ Hp) as (_ & Hb & Hc).
      cbn [fst snd] in Ha. destruct Ha as [->| ->]; auto.
Qed.

Definition positive (r : doc_ref) : Prop :=
  (0 < dr_v r)%Z /\ match dr_t r with Some k => (0 < k)%Z | None => True end /\
  match dr_n r with Some k => (0 < k)%Z | None => True end.

Lemma own_positive : forall q p r, own_ref q p r -> positive r.
Proof.
  intros q p [v t n]. unfold own_ref, positive, own_part, own. cbn [dr_v dr_t dr_n].
  destruct t, n; lia.
Qed.

Lemma integer_number : forall t k, integer_token t k -> (0 < k)%Z -> number_token t (Z.to_nat k).
Proof. intros t k H P. unfold number_token. rewrite H, Z2Nat.id by lia. reflexivity. Qed.

Lemma ref_translated : forall t r, doc_ref_token t r -> positive r -> ref_token t (to_ref r).
Proof.
  intros t r H (Pv & Pt & Pn). destruct H; cbn [dr_v dr_t dr_n] in *; unfold to_ref; cbn [dr_v dr_t dr_n option_map].
  - apply ref_1. now apply integer_number.
  - apply (ref_2 a b). + now apply integer_number. + apply part_number. now apply integer_number.
  - change (ref_token (a ++ slash ++ [] ++ slash ++ c) (mkRef (Z.to_nat v) None (Some (Z.to_nat n)))).
    apply ref_3; [now apply integer_number|apply part_absent|apply part_number; now apply integer_number].
  - apply (ref_3 a b c); [now apply integer_number|apply part_number; now apply integer_number|apply part_number; now apply integer_number].
Qed.

Lemma word_not_nl : forall w, word w -> w <> nl.
Proof.
  intros w [_ H] ->. inversion H as [|? ? (_ & K & _) _]; subst. apply K. now left.
Qed.

Lemma words_not_nl : forall ws, Forall word ws -> ~ In nl ws.
Proof. intros ws H K. rewrite Forall_forall in H. exact (word_not_nl _ (H _ K) eq_refl). Qed.

Lemma line_writes : forall s l, doc_line s l -> not_library s = true -> (forall n, s <> DocObject n) ->
  Forall positive (refs_of s) -> writes (to_st s) l.
Proof.
  intros s l H Hl Ho Hp. destruct H; cbn [to_st refs_of] in *; try discriminate Hl; try now constructor.
  - constructor. clear - H Hp. induction H; cbn [map] in *; constructor.
    + inversion Hp as [|? ? [K _] _]; subst. now apply integer_number.
    + inversion Hp; auto.
  - constructor. clear - H Hp. induction H; cbn [map] in *; inversion Hp; subst; constructor; auto using ref_translated.
  - constructor. clear - H Hp. induction H; cbn [map] in *; inversion Hp; subst; constructor; auto using ref_translated.
  - constructor. now apply words_not_nl.
  - constructor. apply smoothing_off.
  - constructor. now apply smoothing_number.
  - destruct (Ho name). reflexivity.
Qed.

(** ** Lines *)

Lemma body_weaken : forall l ss ts, writes_body false ss ts -> writes_body l ss ts.
Proof. intros l ss ts H. induction H; [constructor|now constructor|now constructor|discriminate]. Qed.

Lemma rest_written : forall ls lines, with_blanks ls lines -> forall b, Forall2 doc_line b ls ->
  forallb not_library b = true -> Forall (fun s => Forall positive (refs_of s)) b ->
  forall body os, doc_objects b = (body, os) ->
  exists t1 t2, line_tokens lines = t1 ++ t2 /\ writes_body false (map to_st body) t1 /\ writes_objects (map to_ob os) t2.
Proof.
  intros ls lines H. induction H; intros b Hb Hl Hp body os E.
  - inversion Hb; subst. cbn in E. inversion E; subst. exists [], []. repeat split; constructor.
  - destruct (IHwith_blanks b Hb Hl Hp body os E) as (t1 & t2 & Et & H1 & H2).
    exists (nl :: t1), t2. split; [|split; [now constructor|exact H2]].
    unfold line_tokens in *. cbn [flat_map app]. now rewrite Et.
  - inversion Hb as [|s ? b' ? Hs Hb' E1 E2]; subst. cbn [forallb] in Hl. apply andb_prop in Hl. destruct Hl as [Hl Hl'].
    inversion Hp as [|? ? Hps Hp']; subst.
    destruct (doc_objects b') as [body' os'] eqn:E'. destruct (IHwith_blanks b' Hb' Hl' Hp' body' os' E') as (t1 & t2 & Et & H1 & H2).
    assert (L : line_tokens (l :: ls') = l ++ nl :: t1 ++ t2).
    { unfold line_tokens in *. cbn [flat_map]. rewrite Et, <- app_assoc. reflexivity. }
    assert (C : (exists n, s = DocObject n) \/ (forall n, s <> DocObject n)).
    { destruct s; try (right; discriminate). left. eauto. }
    destruct C as [(n & ->)|Hn].
    + cbn [doc_objects] in E. rewrite E' in E. inversion E; subst. inversion Hs; subst.
      exists [], (lit "o" :: n :: nl :: t1 ++ t2). split; [exact L|]. split; [constructor|].
      cbn [map]. unfold to_ob at 1. cbn [fst snd]. constructor; [now apply body_weaken|exact H2].
    + assert (E2 : doc_objects (s :: b') = (s :: body', os')) by (destruct s; cbn [doc_objects]; rewrite E'; try reflexivity; now destruct (Hn name)).
      rewrite E2 in E. inversion E; subst. exists (l ++ nl :: t1), t2. split; [rewrite L, <- app_assoc; reflexivity|].
      split; [|exact H2]. cbn [map]. constructor; [|exact H1]. now apply line_writes.
Qed.

Lemma libraries_written : forall ls lines, with_blanks ls lines -> forall names b, Forall2 doc_line (map DocLibrary names ++ b) ls ->
  exists ls' lines' tl, line_tokens lines = tl ++ line_tokens lines' /\ writes_libraries (concat names) tl /\
    Forall2 doc_line b ls' /\ with_blanks ls' lines'.
Proof.
  intros ls lines H. induction H; intros names b Hb.
  - destruct names; [|inversion Hb]. exists [], [], []. repeat split; try constructor. exact Hb.
  - destruct (IHwith_blanks names b Hb) as (l1 & l2 & tl & Et & Hl & Hb' & Hw).
    exists l1, l2, (nl :: tl). split; [|split; [now constructor|auto]].
    unfold line_tokens in *. cbn [flat_map app]. now rewrite Et.
  - destruct names as [|ns names].
    + exists (l :: ls), (l :: ls'), []. repeat split; try constructor; auto.
    + cbn [map app] in Hb. inversion Hb as [|? ? ? ? Hs Hb' E1 E2]; subst. inversion Hs; subst.
      destruct (IHwith_blanks names b Hb') as (l1 & l2 & tl & Et & Hl & Hb'' & Hw).
      exists l1, l2, (lit "mtllib" :: ns ++ nl :: tl). split; [|split; [|auto]].
      * unfold line_tokens in *. cbn [flat_map app]. rewrite Et, <- !app_assoc. reflexivity.
      * cbn [concat]. constructor; [now apply words_not_nl|exact Hl].
Qed.

Lemma blank_libraries : forall libs tl t, writes_libraries libs tl -> writes_body false [] t -> writes_libraries libs (tl ++ t).
Proof.
  intros libs tl t H Ht. induction H.
  - cbn [app]. remember [] as ss in Ht. induction Ht; subst; try discriminate; constructor. auto.
  - cbn [app]. now constructor.
  - cbn [app]. rewrite <- app_assoc. cbn [app]. now constructor.
Qed.

Definition to_file (names : list (list bytes)) (b : list doc_statement) : obj_file :=
  mkObjFile (concat names) (to_obs (doc_objects b)).

Lemma text_written : forall input names b, obj_doc_text input (map DocLibrary names ++ b) ->
  forallb not_library b = true -> Forall (fun s => Forall positive (refs_of s)) b ->
  exists ts, tokenizes input ts /\ writes_file (to_file names b) ts.
Proof.
  intros input names b (ls & lines & Hl & Hb & Ht) Hn Hp.
  destruct (libraries_written _ _ Hb _ _ Hl) as (ls' & lines' & tl & Et & HL & Hl' & Hb').
  destruct (doc_objects b) as [body os] eqn:E.
  destruct (rest_written _ _ Hb' _ Hl' Hn Hp _ _ E) as (t1 & t2 & Et' & H1 & H2).
  exists (line_tokens lines). split; [exact Ht|]. rewrite Et, Et'. unfold to_file, to_obs. rewrite E.
  destruct body as [|s body].
  - rewrite app_assoc. apply writes_named; [|exact H2]. now apply blank_libraries.
  - apply writes_unnamed; [exact HL|now apply body_weaken|exact H2].
Qed.

(** ** Scope *)

Definition counts_at (p : pen) : counts := mkCounts (length (pen_v p)) (length (pen_t p)) (length (pen_n p)).

Lemma count_step : forall k p s, (forall n, s <> DocObject n) -> count (counts_at p) (to_st s) = counts_at (step k p s).
Proof.
  intros k p s Hn. destruct s; cbn [to_st count step]; unfold counts_at; cbn [pen_v pen_t pen_n n_v n_t n_n];
    rewrite ?app_length; cbn [length]; rewrite ?Nat.add_1_r; try reflexivity. now destruct (Hn name).
Qed.

Lemma own_scope : forall q p r, own_ref q p r -> ref_in_scope (counts_at q) (counts_at p) (to_ref r).
Proof.
  intros q p [v t n]. unfold own_ref, own_part, own, ref_in_scope, part_in_scope, in_scope, to_ref, counts_at.
  cbn [dr_v dr_t dr_n ref_v ref_t ref_n n_v n_t n_n].
  destruct t, n; cbn [option_map]; lia.
Qed.

Lemma form_translated : forall r, form (to_ref r) = doc_form r.
Proof. intros [v t n]. unfold form, doc_form, to_ref. cbn. now destruct t, n. Qed.

Lemma same_form_translated : forall rs, (forall r r', In r rs -> In r' rs -> doc_form r = doc_form r') -> same_form (map to_ref rs).
Proof.
  intros rs H a b Ha Hb. apply in_map_iff in Ha, Hb. destruct Ha as (x & <- & Hx), Hb as (y & <- & Hy).
  rewrite !form_translated. auto.
Qed.

Lemma proper_translated : forall q p s, obj_documented s -> Forall (own_ref q p) (refs_of s) -> proper (counts_at q) (counts_at p) (to_st s).
Proof.
  intros q p s Hd H. destruct s; cbn [to_st proper obj_documented refs_of] in *; try exact I.
  - split; [now destruct ks|]. apply Forall_map. rewrite Forall_forall in *.
    intros k Hk. destruct (H (mkDocRef k None None) ltac:(apply in_map_iff; eauto)) as (K & _). unfold own in K. unfold in_scope, counts_at. cbn in *. lia.
  - destruct Hd as (Hl & Hf & _). rewrite map_length. split; [exact Hl|]. split; [now apply same_form_translated|].
    apply Forall_map. eapply Forall_impl; [|exact H]. intros r. apply own_scope.
  - destruct Hd as (Hl & Hf). rewrite map_length. split; [exact Hl|]. split; [now apply same_form_translated|].
    apply Forall_map. eapply Forall_impl; [|exact H]. intros r. apply own_scope.
Qed.

Lemma proper_rest : forall b q p body os, own_refs q p b -> Forall obj_documented b -> doc_objects b = (body, os) ->
  proper_body (counts_at q) (counts_at p) (map to_st body) /\
  proper_objects (count_all (counts_at p) (map to_st body)) (map to_ob os).
Proof.
  induction b as [|s b IH]; intros q p body os Ho Hd E.
  - cbn in E. inversion E; subst. now cbn.
  - cbn [own_refs] in Ho. destruct Ho as [Hs Ho]. inversion Hd as [|? ? Hds Hd']; subst.
    apply shapes_refs in Hs; [|exact Hds].
    destruct (doc_objects b) as [body' os'] eqn:E'.
    assert (C : (exists n, s = DocObject n) \/ (forall n, s <> DocObject n)).
    { destruct s; try (right; discriminate). left. eauto. }
    destruct C as [(n & ->)|Hn].
    + cbn [doc_objects] in E. rewrite E' in E. inversion E; subst. destruct (IH _ _ _ _ Ho Hd' eq_refl) as [H1 H2].
      cbn [map proper_body]. split; [exact I|]. cbn [count_all fold_left]. unfold to_ob at 1. cbn [fst snd proper_objects]. now split.
    + assert (E2 : doc_objects (s :: b) = (s :: body', os')) by (destruct s; cbn [doc_objects]; rewrite E'; try reflexivity; now destruct (Hn name)).
      rewrite E2 in E. inversion E; subst.
      assert (Ho' : own_refs q (step false p s) b) by (destruct s; try exact Ho; now destruct (Hn name)).
      destruct (IH _ _ _ _ Ho' Hd' eq_refl) as [H1 H2]. cbn [map proper_body count_all fold_left].
      rewrite (count_step false) by exact Hn. split; [split|]; auto. now apply proper_translated.
Qed.

Lemma drawable_translated : forall n body, Forall obj_documented body -> has_element body -> drawable (n, map to_st body).
Proof.
  intros n body Hd (s & Hs & H). exists (to_st s). split; [cbn [snd]; now apply in_map|].
  destruct H as [H|(m & ->)]; [left|right; cbn; eauto]. destruct s; cbn in *; try easy.
Qed.

Lemma objects_documented : forall b body os, doc_objects b = (body, os) -> Forall obj_documented b ->
  Forall obj_documented body /\ Forall (fun o => Forall obj_documented (snd o)) os.
Proof.
  induction b as [|s b IH]; intros body os E Hd.
  - cbn in E. inversion E; subst. auto.
  - inversion Hd as [|? ? Hs Hd']; subst. cbn [doc_objects] in E. destruct (doc_objects b) as [body' os'].
    destruct (IH _ _ eq_refl Hd') as [H1 H2]. destruct s; inversion E; subst; split; auto.
Qed.

Lemma filter_libraries : forall names b, forallb not_library b = true -> filter not_library (map DocLibrary names ++ b) = b.
Proof.
  intros names b H. induction names; cbn [map app filter not_library]; auto.
  clear - H. induction b as [|s b IH]; cbn in *; auto. apply andb_prop in H. destruct H as [-> H]. now rewrite IH.
Qed.

Lemma own_libraries : forall names q p b, own_refs q p (map DocLibrary names ++ b) <-> own_refs q p b.
Proof.
  induction names; intros q p b; cbn [map app own_refs doc_shapes step]; [tauto|]. rewrite IHnames.
  split; [tauto|]. split; [constructor|auto].
Qed.

Lemma own_refs_positive : forall b q p, own_refs q p b -> Forall obj_documented b -> Forall (fun s => Forall positive (refs_of s)) b.
Proof.
  induction b as [|s b IH]; intros q p Ho Hd; constructor; inversion Hd as [|? ? Hs Hd']; subst; destruct Ho as [H Ho].
  - apply shapes_refs in H; [|exact Hs]. eapply Forall_impl; [|exact H]. intros r. apply own_positive.
  - eapply IH; eauto.
Qed.

Lemma doc_well_formed : forall names b, obj_supported (map DocLibrary names ++ b) -> forallb not_library b = true ->
  Forall obj_documented b -> well_formed (to_file names b).
Proof.
  intros names b (_ & Ho & Hd) Hn Hdoc. rewrite own_libraries in Ho. rewrite filter_libraries in Hd by exact Hn.
  unfold to_file, well_formed, to_obs. cbn [file_objects]. destruct (doc_objects b) as [body os] eqn:E.
  destruct (proper_rest _ _ _ _ _ Ho Hdoc E) as [H1 H2]. destruct Hd as [D1 D2].
  destruct (objects_documented _ _ _ E Hdoc) as [K1 K2].
  assert (D3 : Forall drawable (map to_ob os)).
  { apply Forall_map. rewrite Forall_forall in *. intros o Hi. apply drawable_translated; auto. }
  destruct body as [|s body].
  - split; auto.
  - split; [split; auto|]. constructor; auto. destruct D1 as [D1|D1]; [discriminate|]. now apply drawable_translated.
Qed.

(** * Pictures *)

Lemma forall2_len : forall A B (R : A -> B -> Prop) l l', Forall2 R l l' -> length l = length l'.
Proof. intros A B R l l' H. induction H; cbn; auto. Qed.

Definition as_written (f : obj_file) (n : bytes) (before : list statement) (d : drawn reference) (x : drawing) : Prop :=
  draw_map (lookup f) d = draw_map Some (dr_shape x) /\
  dr_groups x = active_groups before /\ dr_smoothing x = active_smoothing before /\ dr_material x = active_material before /\
  dr_object x = n.

Inductive body_pic (f : obj_file) (n : bytes) : list statement -> list statement -> list drawing -> Prop :=
| body_pic_end before : body_pic f n before [] []
| body_pic_more before s ss xs out :
    Forall2 (as_written f n before) (written s) xs -> body_pic f n (before ++ [s]) ss out ->
    body_pic f n before (s :: ss) (xs ++ out).

Lemma draw_some : forall (f : obj_file) (d : drawn reference), (forall r, In r (corners d) -> lookup f r <> None) ->
  exists x, draw_map (lookup f) d = draw_map Some x.
Proof.
  intros f d H.
  assert (K : forall r, In r (corners d) -> exists y, lookup f r = Some y).
  { intros r Hr. specialize (H r Hr). destruct (lookup f r); eauto. easy. }
  destruct d as [a|a b|a b c]; cbn [corners draw_map] in *.
  - destruct (K a) as (x & ->); [now left|]. now exists (DPoint x).
  - destruct (K a) as (x & ->); [now left|]. destruct (K b) as (y & ->); [right; now left|]. now exists (DLine x y).
  - destruct (K a) as (x & ->); [now left|]. destruct (K b) as (y & ->); [right; now left|].
    destruct (K c) as (z & ->); [right; right; now left|]. now exists (DFace x y z).
Qed.

Lemma body_pic_exists : forall f n ss before, (forall d r, In d (flat_map written ss) -> In r (corners d) -> lookup f r <> None) ->
  exists xs, body_pic f n before ss xs.
Proof.
  induction ss as [|s ss IH]; intros before H; [exists []; constructor|].
  destruct (IH (before ++ [s])) as (out & Ho).
  { intros d r Hd. apply H. cbn [flat_map]. apply in_or_app. now right. }
  assert (K : exists xs, Forall2 (as_written f n before) (written s) xs).
  { assert (H' : forall d r, In d (written s) -> In r (corners d) -> lookup f r <> None).
    { intros d r Hd. apply H. cbn [flat_map]. apply in_or_app. now left. }
    clear - H'. induction (written s) as [|d l IHl]; [exists []; constructor|].
    destruct IHl as (xs & Hx); [intros d' r Hd; apply H'; now right|].
    destruct (draw_some f d) as (x & Hd); [intros r; apply H'; now left|].
    exists (mkDrawing x (active_groups before) (active_smoothing before) (active_material before) n :: xs).
    constructor; [|exact Hx]. unfold as_written. cbn. auto. }
  destruct K as (xs & Hx). exists (xs ++ out). now constructor.
Qed.

Lemma forall2_nth : forall A B (R : A -> B -> Prop) l l', Forall2 R l l' -> forall j y, nth_error l' j = Some y ->
  exists x, nth_error l j = Some x /\ R x y.
Proof.
  intros A B R l l' H. induction H; intros [|j] z E; cbn in *; try discriminate; [inversion E; subst; eauto|auto].
Qed.

Lemma body_pic_nth : forall f n before ss xs, body_pic f n before ss xs -> forall j x, nth_error xs j = Some x ->
  exists mid s after d, ss = mid ++ s :: after /\
    length (flat_map written mid) <= j < length (flat_map written mid) + length (written s) /\
    nth_error (flat_map written ss) j = Some d /\ as_written f n (before ++ mid) d x.
Proof.
  intros f n before ss xs H. induction H; intros j x E; [destruct j; discriminate|].
  pose proof (forall2_len _ _ _ _ _ H) as L.
  destruct (Nat.ltb_spec j (length xs)) as [Hj|Hj].
  - rewrite nth_error_app1 in E by exact Hj. destruct (forall2_nth _ _ _ _ _ H _ _ E) as (d & Ed & Hd).
    exists [], s, ss, d. split; [reflexivity|]. split; [cbn; lia|]. split; [|now rewrite app_nil_r].
    cbn [flat_map]. rewrite nth_error_app1 by lia. exact Ed.
  - rewrite nth_error_app2 in E by exact Hj. destruct (IHbody_pic _ _ E) as (mid & s' & after & d & -> & Hm & Ed & Hd).
    exists (s :: mid), s', after, d. split; [reflexivity|]. cbn [flat_map]. rewrite app_length. split; [lia|].
    split; [|rewrite <- app_assoc in Hd; exact Hd]. rewrite nth_error_app2 by lia. rewrite L. exact Ed.
Qed.

Lemma body_pic_length : forall f n before ss xs, body_pic f n before ss xs -> length xs = length (flat_map written ss).
Proof.
  intros f n before ss xs H. induction H; [reflexivity|]. cbn [flat_map]. rewrite !app_length, IHbody_pic.
  now rewrite (forall2_len _ _ _ _ _ H).
Qed.

Lemma forall2_seq : forall A (R : nat -> A -> Prop) xs i, (forall j x, nth_error xs j = Some x -> R (i + j) x) ->
  Forall2 R (seq i (length xs)) xs.
Proof.
  induction xs as [|x xs IH]; intros i H; cbn [length seq]; constructor.
  - rewrite <- (Nat.add_0_r i). now apply H.
  - apply IH. intros j y E. replace (S i + j) with (i + S j) by lia. now apply H.
Qed.

Lemma nth_error_map : forall A B (f : A -> B) l j, nth_error (map f l) j = option_map f (nth_error l j).
Proof. induction l; intros [|j]; cbn; auto. Qed.

Lemma body_shown : forall dbg input set f i ob n ss xs, fits input -> parse dbg input = Ok set -> says input f ->
  nth_error (objects set) i = Some ob -> nth_error (file_objects f) i = Some (n, ss) ->
  body_pic f n [] ss xs -> object_shows get_vtn_triple ob xs.
Proof.
  intros dbg input set f i ob n ss xs Hf Hp Hs Hob Hss Hx.
  destruct (nth_resolved dbg input set Hf Hp f Hs i ob n ss Hob Hss) as [Hr _].
  pose proof (body_pic_length _ _ _ _ _ Hx) as L.
  assert (L' : length (element_set ob) = length xs).
  { rewrite L, <- (map_length (draw_map (lookup f))), <- Hr, map_length. reflexivity. }
  unfold object_shows. rewrite L'. apply forall2_seq. intros j x Ex. cbn [Nat.add].
  destruct (body_pic_nth _ _ _ _ _ Hx _ _ Ex) as (mid & s & after & d & E & Hj & Ed & Hd & Hg & Hsm & Hm & Ho).
  assert (Hat : element_at ss j mid s) by (exists after; auto).
  assert (Hlt : j < length (element_set ob)) by (rewrite L'; apply nth_error_Some; congruence).
  destruct (nth_error (element_set ob) j) as [e|] eqn:Ee; [|apply nth_error_None in Ee; lia].
  assert (Hin : In ob (objects set)) by (eapply nth_error_In; eauto).
  destruct (object_shapes dbg input set ob Hf Hp Hin) as [Ls Hse].
  destruct (nth_error (shape_set ob) j) as [se|] eqn:Es; [|apply nth_error_None in Es; lia].
  pose proof (object_geometries dbg input set ob Hf Hp Hin) as Hgeo.
  assert (Hjg : In j (concat (map shapes (geometry_set ob)))) by (rewrite Hgeo; apply in_seq; lia).
  apply in_concat in Hjg. destruct Hjg as (l & Hl & Hjl). apply in_map_iff in Hl. destruct Hl as (g & <- & Hgi).
  exists e, se, g. split; [exact Ee|]. split; [exact Es|]. split; [now apply (Hse _ _ Es)|]. split; [exact Hgi|]. split; [exact Hjl|].
  split; [|split; [|split; [|split]]].
  - apply (f_equal (fun l => nth_error l j)) in Hr. rewrite !nth_error_map, Ee, Ed in Hr. cbn [option_map] in Hr.
    injection Hr as Hr. now rewrite Hr.
  - rewrite Hg. eapply (nth_groups dbg input set Hf Hp f Hs i ob n ss); eauto.
  - rewrite Hsm. eapply (nth_smoothing dbg input set Hf Hp f Hs i ob n ss); eauto.
  - rewrite Hm. eapply (nth_material dbg input set Hf Hp f Hs i ob n ss); eauto.
  - rewrite (nth_is dbg input set Hf Hp f Hs i ob n ss Hob Hss), Ho. reflexivity.
Qed.

Lemma file_shown : forall dbg input set f, fits input -> parse dbg input = Ok set -> says input f ->
  exists xss, Forall2 (fun o xs => body_pic f (fst o) [] (snd o) xs) (file_objects f) xss /\ shows get_vtn_triple set (concat xss).
Proof.
  intros dbg input set f Hf Hp Hs.
  pose proof (parsed_count dbg input set Hf Hp f Hs) as L.
  assert (K : forall os obs i, Datatypes.length obs = Datatypes.length os ->
    (forall k o, nth_error os k = Some o -> nth_error (file_objects f) (i + k) = Some o) ->
    (forall k ob, nth_error obs k = Some ob -> nth_error (objects set) (i + k) = Some ob) ->
    exists xss, Forall2 (fun o xs => body_pic f (fst o) [] (snd o) xs) os xss /\ Forall2 (object_shows get_vtn_triple) obs xss).
  { induction os as [|[n ss] os IH]; intros [|ob obs] i Hl Ho Hob; try discriminate; [exists []; split; constructor|].
    cbn [Datatypes.length] in Hl. injection Hl as Hl.
    destruct (IH obs (S i) Hl) as (xss & H1 & H2).
    { intros k o E. replace (S i + k) with (i + S k) by lia. now apply Ho. }
    { intros k o E. replace (S i + k) with (i + S k) by lia. now apply Hob. }
    specialize (Ho 0 _ eq_refl). specialize (Hob 0 _ eq_refl).
    destruct (nth_resolved dbg input set Hf Hp f Hs _ _ _ _ Hob Ho) as [_ Hr].
    destruct (body_pic_exists f n ss [] Hr) as (xs & Hx).
    exists (xs :: xss). split; constructor; auto. eapply body_shown; eauto. }
  destruct (K (file_objects f) (objects set) 0 L) as (xss & H1 & H2); auto.
  exists xss. split; [exact H1|]. exists xss. auto.
Qed.

(** ** The document's way of drawing *)

Definition rest_v (d : list doc_statement) : list vertex := flat_map (fun s => match s with DocVertex v => [v] | _ => [] end) d.
Definition rest_t (d : list doc_statement) : list texture_vertex := flat_map (fun s => match s with DocTexture v => [v] | _ => [] end) d.
Definition rest_n (d : list doc_statement) : list normal_vertex := flat_map (fun s => match s with DocNormal v => [v] | _ => [] end) d.

Definition sees (f : obj_file) (p : pen) (b : list doc_statement) : Prop :=
  file_vertices f = pen_v p ++ rest_v b /\ file_texture_vertices f = pen_t p ++ rest_t b /\ file_normals f = pen_n p ++ rest_n b.

Lemma sees_step : forall f p s b, sees f p (s :: b) -> sees f (step false p s) b.
Proof.
  intros f p s b (Hv & Ht & Hn). unfold sees, rest_v, rest_t, rest_n in *. cbn [flat_map] in *.
  destruct s; cbn [step pen_v pen_t pen_n app] in *; rewrite <- ?app_assoc; cbn [app]; auto.
Qed.

Lemma numbered_own : forall A (from l rest : list A) k, own from l k -> number (l ++ rest) (Z.to_nat k) = numbered l k.
Proof.
  intros A from l rest k H. unfold own in H. unfold number, numbered.
  destruct (Z.ltb_spec 0 k); [|lia]. destruct (Z.to_nat k) as [|i] eqn:E; [lia|].
  replace (Z.to_nat (k - 1)) with i by lia. rewrite nth_error_app1 by lia. reflexivity.
Qed.

Lemma look_own : forall f q p b r, sees f p b -> own_ref q p r -> lookup f (to_ref r) = look p r.
Proof.
  intros f q p b [v t n] (Hv & Ht & Hn) (Ov & Ot & On). unfold lookup, look, to_ref, own_part in *.
  cbn [ref_v ref_t ref_n dr_v dr_t dr_n] in *. rewrite Hv, Ht, Hn.
  rewrite (numbered_own _ _ _ _ _ Ov). destruct t, n; cbn [option_map]; rewrite ?(numbered_own _ _ _ _ _ Ot), ?(numbered_own _ _ _ _ _ On); reflexivity.
Qed.

Lemma pairs_seq : forall A (z : A) l, pairs l = map (fun i => (nth i l z, nth (i + 1) l z)) (seq 0 (length l - 1)).
Proof.
  induction l as [|a [|b l] IH]; try reflexivity.
  cbn [length]. replace (S (S (length l)) - 1) with (S (S (length l) - 1)) by lia.
  cbn [seq map]. rewrite <- seq_shift, map_map. change (pairs (a :: b :: l)) with ((a, b) :: pairs (b :: l)). rewrite IH.
  cbn [nth Nat.add]. f_equal.
Qed.

Lemma pairs_map : forall A B (f : A -> B) l, pairs (map f l) = map (fun '(a, b) => (f a, f b)) (pairs l).
Proof.
  induction l as [|a [|b l] IH]; try reflexivity.
  change (pairs (map f (a :: b :: l))) with ((f a, f b) :: pairs (map f (b :: l))). rewrite IH. reflexivity.
Qed.

Lemma written_translated : forall s, written (to_st s) = map (draw_map to_ref) (doc_shapes s).
Proof.
  intros s. destruct s; try reflexivity; cbn [to_st written doc_shapes].
  - rewrite !map_map. reflexivity.
  - rewrite map_map.
    transitivity (map (fun '(a, b) => DLine a b) (pairs (map to_ref rs))).
    + rewrite (pairs_seq _ (mkRef 0 None None)), map_map. reflexivity.
    + rewrite pairs_map, map_map. apply map_ext. now intros [a b].
  - destruct rs as [|a rs]; [reflexivity|]. cbn [map]. rewrite map_map.
    transitivity (map (fun '(b, c) => DFace (to_ref a) b c) (pairs (map to_ref rs))).
    + rewrite (pairs_seq _ (mkRef 0 None None)), map_map. cbn [length]. rewrite map_length.
      replace (S (length rs) - 2) with (length rs - 1) by lia. apply map_ext. intros i. unfold nth_ref.
      rewrite Nat.add_1_r. replace (i + 2) with (S (S i)) by lia. reflexivity.
    + rewrite pairs_map, map_map. apply map_ext. now intros [b c].
Qed.

Lemma drawn_translated : forall f q p b d, sees f p b -> Forall (own_ref q p) (corners d) ->
  draw_map (lookup f) (draw_map to_ref d) = draw_map (look p) d.
Proof.
  intros f q p b d Hs H. destruct d; cbn [corners draw_map] in *;
    repeat match goal with H : Forall _ (_ :: _) |- _ => inversion H; clear H; subst end;
    repeat (erewrite look_own by eauto); reflexivity.
Qed.

Definition holds_pen (p : pen) (n : bytes) (before : list statement) : Prop :=
  pen_groups p = active_groups before /\ pen_smoothing p = active_smoothing before /\
  pen_material p = active_material before /\ pen_object p = n.

Lemma holds_step : forall p n before s, holds_pen p n before -> obj_documented s -> not_library s = true ->
  (forall n, s <> DocObject n) -> holds_pen (step false p s) n (before ++ [to_st s]).
Proof.
  intros p n before s (Hg & Hs & Hm & Ho) Hd Hl Hn. unfold holds_pen, active_groups, active_smoothing, active_material in *.
  rewrite !fold_left_app. cbn [fold_left].
  destruct s; cbn [step to_st activate_groups pen_groups pen_smoothing pen_material pen_object obj_documented] in *;
    try discriminate Hl; try (now destruct (Hn name)); repeat split; auto;
    try (destruct (fold_left activate_groups before None); auto; fail).
  destruct names; [easy|]. destruct (fold_left activate_groups before None); reflexivity.
Qed.

Lemma picture_exists : forall f b q p n before body os xs xss, doc_objects b = (body, os) ->
  forallb not_library b = true -> Forall obj_documented b -> own_refs q p b -> sees f p b -> holds_pen p n before ->
  body_pic f n before (map to_st body) xs ->
  Forall2 (fun o xs => body_pic f (fst o) [] (snd o) xs) (map to_ob os) xss ->
  picture false p b (xs ++ concat xss).
Proof.
  intros f. induction b as [|s b IH]; intros q p n before body os xs xss E Hl Hd Ho Hs Hh Hx Hxs.
  - cbn in E. inversion E; subst. cbn in *. inversion Hx; subst. inversion Hxs; subst. constructor.
  - cbn [own_refs] in Ho. destruct Ho as [Hsh Ho]. inversion Hd as [|? ? Hds Hd']; subst.
    cbn [forallb] in Hl. apply andb_prop in Hl. destruct Hl as [Hl Hl'].
    destruct (doc_objects b) as [body' os'] eqn:E'.
    assert (C : (exists n, s = DocObject n) \/ (forall n, s <> DocObject n)).
    { destruct s; try (right; discriminate). left. eauto. }
    destruct C as [(m & ->)|Hn].
    + cbn [doc_objects] in E. rewrite E' in E. inversion E; subst. inversion Hx; subst.
      cbn [map] in Hxs. inversion Hxs as [|? xs' ? xss' Hx' Hxs']; subst. cbn [app concat].
      refine (picture_more _ _ _ _ [] _ _ _); [constructor|].
      eapply (IH p (step false p (DocObject m)) m []); eauto. repeat split; reflexivity.
    + assert (E2 : doc_objects (s :: b) = (s :: body', os')) by (destruct s; cbn [doc_objects]; rewrite E'; try reflexivity; now destruct (Hn name)).
      rewrite E2 in E. inversion E; subst. cbn [map] in Hx. inversion Hx as [|? ? ? xs1 out Hx1 Hx2]; subst.
      rewrite <- app_assoc. constructor.
      * rewrite written_translated in Hx1. clear - Hx1 Hsh Hs Hh. destruct Hh as (Hg & Hsm & Hm & Hob).
        remember (map (draw_map to_ref) (doc_shapes s)) as l eqn:El. revert l El xs1 Hx1 Hsh.
        induction (doc_shapes s) as [|d ds IHd]; intros l El xs1 Hx1 Hsh; subst; inversion Hx1; subst; constructor.
        -- inversion Hsh; subst. match goal with K : as_written _ _ _ _ _ |- _ => destruct K as (K1 & K2 & K3 & K4 & K5) end.
           rewrite (drawn_translated f q p (s :: b)) in K1 by assumption. unfold drawn_as. repeat split; congruence.
        -- inversion Hsh; subst. eapply IHd; eauto.
      * eapply (IH q (step false p s) n (before ++ [to_st s])); eauto.
        -- destruct s; try exact Ho. now destruct (Hn name).
        -- now apply sees_step.
        -- now apply holds_step.
Qed.

(** ** Together *)

Lemma rest_all : forall b body os, doc_objects b = (body, os) -> forallb not_library b = true ->
  rest_v b = all_vertices (map to_st body) ++ flat_map (fun o => all_vertices (snd o)) (map to_ob os) /\
  rest_t b = all_texture_vertices (map to_st body) ++ flat_map (fun o => all_texture_vertices (snd o)) (map to_ob os) /\
  rest_n b = all_normals (map to_st body) ++ flat_map (fun o => all_normals (snd o)) (map to_ob os).
Proof.
  induction b as [|s b IH]; intros body os E Hl.
  - cbn in E. inversion E; subst. auto.
  - cbn [doc_objects] in E. destruct (doc_objects b) as [body' os']. cbn [forallb] in Hl. apply andb_prop in Hl. destruct Hl as [Hl Hl'].
    destruct (IH _ _ eq_refl Hl') as (H1 & H2 & H3).
    unfold rest_v, rest_t, rest_n in *. cbn [flat_map]. rewrite H1, H2, H3.
    destruct s; inversion E; subst; cbn [map flat_map to_ob fst snd all_vertices all_texture_vertices all_normals to_st app]; auto.
Qed.

Lemma sees_start : forall names b, forallb not_library b = true -> sees (to_file names b) start b.
Proof.
  intros names b H. unfold sees, file_vertices, file_texture_vertices, file_normals, to_file, to_obs. cbn [file_objects start pen_v pen_t pen_n app].
  destruct (doc_objects b) as [body os] eqn:E. destruct (rest_all _ _ _ E H) as (-> & -> & ->).
  destruct body; cbn [map flat_map fst snd all_vertices all_texture_vertices all_normals app]; auto.
Qed.

Lemma picture_libraries : forall keep names p b xs, picture keep p b xs -> picture keep p (map DocLibrary names ++ b) xs.
Proof.
  induction names; intros p b xs H; cbn [map app]; auto.
  refine (picture_more _ _ _ _ [] _ _ _); [constructor|]. cbn [step]. auto.
Qed.

Lemma doc_libraries_all : forall names b, forallb not_library b = true -> doc_libraries (map DocLibrary names ++ b) = concat names.
Proof.
  intros names b H. unfold doc_libraries. rewrite flat_map_app.
  assert (E : flat_map (fun s => match s with DocLibrary ns => ns | _ => [] end) b = []).
  { induction b as [|s b IH]; [reflexivity|]. cbn [forallb] in H. apply andb_prop in H. destruct H as [Hs H].
    cbn [flat_map]. rewrite IH by exact H. destruct s; try reflexivity. discriminate. }
  rewrite E, app_nil_r. induction names; cbn [map flat_map concat]; congruence.
Qed.

Theorem doc_obj : forall dbg input d, fits input -> obj_doc_text input d -> Forall obj_documented d -> obj_supported d ->
  exists set xs, parse dbg input = Ok set /\ material_libraries set = doc_libraries d /\
    picture false start d xs /\ shows get_vtn_triple set xs.
Proof.
  intros dbg input d Hf Ht Hd Hs. pose proof Hs as ((names & b & -> & Hb) & Ho & _).
  apply Forall_app in Hd. destruct Hd as [_ Hd]. rewrite own_libraries in Ho.
  destruct (text_written _ _ _ Ht Hb (own_refs_positive _ _ _ Ho Hd)) as (ts & Htok & Hw).
  pose proof (doc_well_formed _ _ Hs Hb Hd) as Hwf.
  pose proof (written_parses dbg _ _ _ Hf Hwf Hw Htok) as Hp.
  assert (Hsay : says input (to_file names b)).
  { exists ts. split; [exact Htok|]. now apply file_read. }
  destruct (file_shown _ _ _ _ Hf Hp Hsay) as (xss & H1 & H2).
  exists (file_means (to_file names b)), (concat xss). split; [exact Hp|]. split; [now rewrite doc_libraries_all|]. split; [|exact H2].
  apply picture_libraries. pose proof (sees_start names b Hb) as Hsee.
  remember (to_file names b) as f eqn:Ef.
  assert (Eo : file_objects f = to_obs (doc_objects b)) by now rewrite Ef. rewrite Eo in H1.
  destruct (doc_objects b) as [body os] eqn:E. unfold to_obs in H1.
  assert (Hh : holds_pen start [] []) by (repeat split; reflexivity).
  destruct body as [|s body].
  - apply (picture_exists f b start start [] [] [] os [] xss); auto. constructor.
  - inversion H1 as [|? xs1 ? xss' Hx Hxs]; subst xss. cbn [concat].
    apply (picture_exists f b start start [] [] (s :: body) os xs1 xss'); auto.
Qed.

(** * One object *)

Definition default_state (p : pen) : Prop :=
  pen_groups p = pen_groups start /\ pen_smoothing p = pen_smoothing start /\ pen_material p = pen_material start.

Lemma one_object_tail : forall s d, one_object (s :: d) -> one_object d.
Proof. intros s d H a n b ->. specialize (H (s :: a) n b eq_refl). now inversion H. Qed.

Lemma keep_same : forall d p xs, one_object d -> default_state p \/ (forall n, ~ In (DocObject n) d) ->
  picture true p d xs <-> picture false p d xs.
Proof.
  induction d as [|s d IH]; intros p xs H1 H2.
  - split; intros H; inversion H; subst; constructor.
  - assert (Es : step true p s = step false p s).
    { destruct s; try reflexivity. destruct H2 as [(Hg & Hs & Hm)|H2]; [|destruct (H2 name); now left].
      cbn [step]. now rewrite Hg, Hs, Hm. }
    assert (N : default_state (step false p s) \/ (forall n, ~ In (DocObject n) d)).
    { destruct H2 as [H2|H2].
      - destruct (in_dec (fun a b : bool => Bool.bool_dec a b) true (map (fun s => match s with DocObject _ => true | _ => false end) d)) as [Hi|Hi].
        + left. apply in_map_iff in Hi. destruct Hi as (o & Eo & Ho). destruct o; try discriminate Eo.
          apply in_split in Ho. destruct Ho as (a & b & ->). specialize (H1 (s :: a) name b eq_refl). inversion H1 as [|? ? Hs _]; subst.
          destruct H2 as (K1 & K2 & K3). destruct s; try destruct Hs; unfold default_state; cbn [step pen_groups pen_smoothing pen_material]; auto.
        + right. intros n Hn. apply Hi. apply in_map_iff. exists (DocObject n). auto.
      - right. intros n Hn. apply (H2 n). now right. }
    split; intros H; inversion H; subst; constructor; auto.
    + rewrite <- Es. apply IH; auto; [eapply one_object_tail; eauto|]. now rewrite Es.
    + rewrite Es. apply IH; auto. eapply one_object_tail; eauto.
Qed.

Theorem doc_one_object : forall dbg input d, fits input -> obj_doc_text input d -> Forall obj_documented d -> obj_supported d ->
  one_object d ->
  exists set xs, parse dbg input = Ok set /\ material_libraries set = doc_libraries d /\
    picture true start d xs /\ shows get_vtn_triple set xs.
Proof.
  intros dbg input d Hf Ht Hd Hs H1. destruct (doc_obj dbg input d Hf Ht Hd Hs) as (set & xs & H2 & H3 & H4 & H5).
  exists set, xs. split; [exact H2|]. split; [exact H3|]. split; [|exact H5]. apply keep_same; auto. left. repeat split; reflexivity.
Qed.

(** * There is one picture, and a result shows one *)

Lemma draw_some_inj : forall A (a b : drawn A), draw_map Some a = draw_map Some b -> a = b.
Proof. intros A a b H. destruct a, b; cbn in H; inversion H; reflexivity. Qed.

Lemma drawing_eq : forall x y, dr_shape x = dr_shape y -> dr_groups x = dr_groups y -> dr_smoothing x = dr_smoothing y ->
  dr_material x = dr_material y -> dr_object x = dr_object y -> x = y.
Proof. intros [] []; cbn; congruence. Qed.

Lemma forall2_det : forall A B (R : A -> B -> Prop) l xs ys, (forall a x y, R a x -> R a y -> x = y) ->
  Forall2 R l xs -> Forall2 R l ys -> xs = ys.
Proof.
  intros A B R l xs ys D H. revert ys. induction H; intros ys K; inversion K; subst; [reflexivity|]. f_equal; eauto.
Qed.

Theorem picture_unique : forall keep p d xs ys, picture keep p d xs -> picture keep p d ys -> xs = ys.
Proof.
  intros keep p d xs ys H. revert ys. induction H; intros ys K; inversion K; subst; [reflexivity|].
  f_equal; [|auto]. eapply forall2_det; eauto. intros a x y (A1 & A2 & A3 & A4 & A5) (B1 & B2 & B3 & B4 & B5).
  apply drawing_eq; try congruence. apply draw_some_inj. congruence.
Qed.

Lemma shows_length : forall get set xs, shows get set xs ->
  length xs = list_sum (map (fun ob => length (element_set ob)) (objects set)).
Proof.
  intros get set xs (xss & H & ->). induction H; [reflexivity|]. cbn [concat map list_sum fold_right].
  rewrite app_length. unfold list_sum in IHForall2. rewrite IHForall2. f_equal.
  apply forall2_len in H. rewrite seq_length in H. auto.
Qed.

Lemma shows_groups : forall get set xs, shows get set xs ->
  map (fun x => map Some (dr_groups x)) xs =
  flat_map (fun ob => map (fun j => match nth_error (shape_set ob) j with
                                    | Some se => map (nth_error (group_set ob)) (se_groups se)
                                    | None => []
                                    end) (seq 0 (length (element_set ob)))) (objects set).
Proof.
  intros get set xs (xss & H & ->). induction H as [|ob ys obs xss H Hs IH]; [reflexivity|]. cbn [concat flat_map].
  rewrite map_app, IH. f_equal. unfold object_shows in H. clear - H.
  induction H as [|j x l xs (e & se & g & _ & E1 & _ & _ & _ & _ & E2 & _) H IH]; [reflexivity|].
  cbn [map]. now rewrite IH, E1, E2.
Qed.
