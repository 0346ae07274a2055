(** What a statement at a given place of the text contributes to the result. *)
From Verif Require Import ObjModel ObjErrorSpec ObjView LexerProofs ObjAccept ObjFile ObjTop
  ObjMeaning ObjReach ObjUnique ObjFacts ObjMore.
Local Open Scope list_scope.

Lemma same_length : forall A B (P : A -> B -> Prop) l m, Forall2 P l m -> length l = length m.
Proof. intros A B P l m H. induction H; cbn; auto. Qed.

Lemma refs_split : forall base now ts rs rest, reads_refs base now ts rs rest ->
  exists toks rest', ts = toks ++ rest' /\ Forall2 (valid_ref base now) toks rs /\
    match rest' with t :: _ => forall r, ~ valid_ref base now t r | [] => True end.
Proof.
  intros base now ts rs rest H. induction H as [|t rest H|t r ts rs rest H _ (toks & rest' & -> & HF & IH)].
  - exists [], []. auto.
  - exists [], (t :: rest). auto.
  - exists (t :: toks), rest'. auto.
Qed.

Lemma optional_next : forall d ts x rest, reads_optional d ts x rest -> next_number d ts x.
Proof.
  intros d ts x rest H. inversion H as [t y r Ht|t r Ht|]; subst; cbn; auto.
  - now rewrite Ht.
  - destruct (RustStd.parse_f64 t) eqn:E; auto. exfalso. eapply Ht; eauto.
Qed.

Section Place.
Context (dbg : bool) (input : bytes) (set : object_set) (Hf : fits input) (Hok : parse dbg input = Ok set).
Context (ts : list bytes) (Ht : tokenizes input ts).
Context (done : list (bytes * list statement)) (n : bytes) (before : list statement).

Lemma place : forall w rest, w <> nl -> w <> lit "o" -> reaches ts done (Some (n, before)) (w :: rest) ->
  exists ob s mid after,
    reads_statement (counts_in done []) (counts_in done before) (w :: rest) s mid /\
    nth_error (objects set) (length done) = Some ob /\
    ob = object_of (counts_in done []) n (before ++ s :: after).
Proof.
  intros w rest Hn Ho Hr. destruct (parsed_said _ _ _ Hf Hok) as (f & (ts' & Ht' & Hff) & _ & Hm).
  apply tokenizes_iff in Ht, Ht'. subst ts'. rewrite <- Ht in *.
  pose proof (reaches_file _ _ _ _ Hr f Hff) as (after & mid & more & E & Hb & _).
  inversion Hb as [? ? K|? ? ? ? K|? ? s m ss ? Hst Hrest]; subst.
  - contradiction.
  - congruence.
  - eexists _, s, m, ss. split; [exact Hst|].
    assert (Hi : nth_error (file_objects f) (length done) = Some (n, before ++ s :: ss)).
    { rewrite E, nth_error_app2, Nat.sub_diag by lia. reflexivity. }
    split.
    + unfold file_means. cbn [objects]. rewrite (objects_of_nth _ _ _ _ Hi). reflexivity.
    + cbn [fst snd]. rewrite E, firstn_app, Nat.sub_diag, firstn_all. cbn [firstn]. now rewrite app_nil_r.
Qed.

Lemma nth_flat : forall A (g : statement -> list A) s after x, g s = [x] ->
  nth_error (flat_map g (before ++ s :: after)) (length (flat_map g before)) = Some x.
Proof.
  intros A g s after x E. rewrite flat_map_app, nth_error_app2, Nat.sub_diag by lia. cbn [flat_map]. now rewrite E.
Qed.

Lemma vertex_place : forall a b c rest, reaches ts done (Some (n, before)) (lit "v" :: a :: b :: c :: rest) ->
  exists ob x y z w, nth_error (objects set) (length done) = Some ob /\
    float_token a x /\ float_token b y /\ float_token c z /\ next_number f64_one rest w /\
    nth_error (vertex_set ob) (length (all_vertices before)) = Some (mkVertex x y z w).
Proof.
  intros a b c rest Hr. destruct (place (lit "v") _ ltac:(discriminate) ltac:(discriminate) Hr) as (ob & s & mid & after & Hs & Hi & ->).
  inversion Hs; subst. eexists _, x, y, z, w. split; [exact Hi|]. repeat (split; [assumption|]).
  split; [eapply optional_next; eauto|]. cbn [object_of vertex_set]. now apply nth_flat.
Qed.

Lemma texture_place : forall a rest, reaches ts done (Some (n, before)) (lit "vt" :: a :: rest) ->
  exists ob u v w, nth_error (objects set) (length done) = Some ob /\ float_token a u /\
    match rest with
    | b :: rest' =>
        match RustStd.parse_f64 b with
        | Some x => v = x /\ next_number f64_zero rest' w
        | None => v = f64_zero /\ w = f64_zero
        end
    | [] => v = f64_zero /\ w = f64_zero
    end /\
    nth_error (texture_vertex_set ob) (length (all_texture_vertices before)) = Some (mkTextureVertex u v w).
Proof.
  intros a rest Hr. destruct (place (lit "vt") _ ltac:(discriminate) ltac:(discriminate) Hr) as (ob & s & mid & after & Hs & Hi & ->).
  inversion Hs as [|? ? u v m w ? Hu Hv Hw| | | | | | |]; subst.
  eexists _, u, v, w. split; [exact Hi|]. split; [assumption|]. split.
  - inversion Hv as [t y r Hy|t r Hy|]; subst.
    + rewrite Hy. split; auto. eapply optional_next; eauto.
    + apply optional_next in Hw. cbn in Hw. destruct (RustStd.parse_f64 t) eqn:E; [exfalso; eapply Hy; eauto|auto].
    + apply optional_next in Hw. auto.
  - cbn [object_of texture_vertex_set]. now apply nth_flat.
Qed.

Lemma normal_place : forall a b c rest, reaches ts done (Some (n, before)) (lit "vn" :: a :: b :: c :: rest) ->
  exists ob x y z, nth_error (objects set) (length done) = Some ob /\
    float_token a x /\ float_token b y /\ float_token c z /\
    nth_error (normal_vertex_set ob) (length (all_normals before)) = Some (mkNormalVertex x y z).
Proof.
  intros a b c rest Hr. destruct (place (lit "vn") _ ltac:(discriminate) ltac:(discriminate) Hr) as (ob & s & mid & after & Hs & Hi & ->).
  inversion Hs; subst. eexists _, x, y, z. split; [exact Hi|]. repeat (split; [assumption|]).
  cbn [object_of normal_vertex_set]. now apply nth_flat.
Qed.

Lemma elements_place : forall base s after, exists front back,
  all_elements base (before ++ s :: after) = front ++ elements_of base s ++ back /\
  length front = length (flat_map written before).
Proof.
  intros base s after. exists (all_elements base before), (all_elements base after). split.
  - unfold all_elements. rewrite flat_map_app. reflexivity.
  - apply length_all_written.
Qed.

Lemma face_place : forall rest, reaches ts done (Some (n, before)) (lit "f" :: rest) ->
  exists ob toks rest' rs front back, nth_error (objects set) (length done) = Some ob /\
    rest = toks ++ rest' /\ Forall2 (valid_ref (counts_in done []) (counts_in done before)) toks rs /\
    match rest' with t :: _ => forall r, ~ valid_ref (counts_in done []) (counts_in done before) t r | [] => True end /\
    3 <= length toks /\
    let r j := local_ref (counts_in done []) (nth_ref rs j) in
    element_set ob = front ++ map (fun j => Face (r 0) (r (j + 1)) (r (j + 2))) (seq 0 (length toks - 2)) ++ back /\
    length front = length (flat_map written before).
Proof.
  intros rest Hr. destruct (place (lit "f") _ ltac:(discriminate) ltac:(discriminate) Hr) as (ob & s & mid & after & Hs & Hi & ->).
  inversion Hs as [| | | | | | | |? rs ? Hrs Hl Hsf]; subst.
  destruct (refs_split _ _ _ _ _ Hrs) as (toks & rest' & -> & HF & Hx).
  destruct (elements_place (counts_in done []) (SFace rs) after) as (front & back & E & El).
  pose proof (same_length _ _ _ _ _ HF) as EL.
  eexists _, toks, rest', rs, front, back. split; [exact Hi|]. repeat (split; [assumption || reflexivity|]).
  split; [rewrite EL; assumption|]. cbv zeta beta. rewrite EL, <- faces_of. split; auto.
Qed.

Lemma line_place : forall rest, reaches ts done (Some (n, before)) (lit "l" :: rest) ->
  exists ob toks rest' rs front back, nth_error (objects set) (length done) = Some ob /\
    rest = toks ++ rest' /\ Forall2 (valid_ref (counts_in done []) (counts_in done before)) toks rs /\
    match rest' with t :: _ => forall r, ~ valid_ref (counts_in done []) (counts_in done before) t r | [] => True end /\
    2 <= length toks /\
    let r j := local_ref (counts_in done []) (nth_ref rs j) in
    element_set ob = front ++ map (fun j => Line (r j) (r (j + 1))) (seq 0 (length toks - 1)) ++ back /\
    length front = length (flat_map written before).
Proof.
  intros rest Hr. destruct (place (lit "l") _ ltac:(discriminate) ltac:(discriminate) Hr) as (ob & s & mid & after & Hs & Hi & ->).
  inversion Hs as [| | | | | | |? rs ? Hrs Hl Hsf|]; subst.
  destruct (refs_split _ _ _ _ _ Hrs) as (toks & rest' & -> & HF & Hx).
  destruct (elements_place (counts_in done []) (SLine rs) after) as (front & back & E & El).
  pose proof (same_length _ _ _ _ _ HF) as EL.
  eexists _, toks, rest', rs, front, back. split; [exact Hi|]. repeat (split; [assumption || reflexivity|]).
  split; [rewrite EL; assumption|]. cbv zeta beta. rewrite EL, <- lines_of. split; auto.
Qed.

Lemma point_place : forall toks rest, ~ In nl toks -> rest = [] \/ (exists rest', rest = nl :: rest') ->
  reaches ts done (Some (n, before)) (lit "p" :: toks ++ rest) ->
  exists ob ks front back, nth_error (objects set) (length done) = Some ob /\
    Forall2 number_token toks ks /\ toks <> [] /\
    Forall (in_scope (n_v (counts_in done [])) (n_v (counts_in done before))) ks /\
    element_set ob = front ++ map (fun k => Point (V (k - 1 - n_v (counts_in done [])))) ks ++ back /\
    length front = length (flat_map written before).
Proof.
  intros toks rest Hn Hrest Hr. destruct (place (lit "p") _ ltac:(discriminate) ltac:(discriminate) Hr) as (ob & s & mid & after & Hs & Hi & ->).
  inversion Hs as [| | | | | |? toks' ks ? Hl HF Hk| |]; subst.
  assert (toks' = toks).
  { destruct Hrest as [->|[rest' ->]].
    - rewrite app_nil_r in Hl. destruct (line_det _ _ _ _ _ Hl (line_eof _ Hn)) as [E _]. congruence.
    - destruct (line_det _ _ _ _ _ Hl (line_nl _ _ Hn)) as [E _]. congruence. }
  subst toks'. destruct (elements_place (counts_in done []) (SPoint ks) after) as (front & back & E & El).
  eexists _, ks, front, back. split; [exact Hi|]. split; [|split; [|split; [|split; [|exact El]]]].
  - clear - HF. induction HF as [|t k ts ks [H _] _ IH]; constructor; auto.
  - intros ->. inversion HF; subst. now apply Hk.
  - clear - HF. induction HF as [|t k ts ks [_ H] _ IH]; constructor; auto.
  - cbn [element_set object_of]. rewrite E. f_equal. f_equal. cbn [elements_of]. apply map_ext.
    intros k. unfold local_index. do 2 f_equal. lia.
Qed.

End Place.

Section Nth.
Context (dbg : bool) (input : bytes) (set : object_set) (Hf : fits input) (Hok : parse dbg input = Ok set).
Context (f : obj_file) (Hs : says input f) (i : nat) (ob : object) (n : bytes) (ss : list statement).
Context (Hob : nth_error (objects set) i = Some ob) (Hss : nth_error (file_objects f) i = Some (n, ss)).

Lemma nth_amount : forall before s after, ss = before ++ s :: after -> is_element s = true ->
  exists front es back, element_set ob = front ++ es ++ back /\
    length front = length (flat_map written before) /\ es <> [] /\
    length es = match s with
                | SFace rs => length rs - 2
                | SLine rs => length rs - 1
                | SPoint ks => length ks
                | _ => 0
                end.
Proof.
  intros before s after E He. destruct (nth_elements _ _ _ Hf Hok f Hs i ob n ss Hob Hss _ _ _ E) as (front & back & Ee & El).
  exists front, (elements_of (base_of f i) s), back. split; [exact Ee|]. split; [exact El|].
  assert (L : length (elements_of (base_of f i) s) =
    match s with SFace rs => length rs - 2 | SLine rs => length rs - 1 | SPoint ks => length ks | _ => 0 end).
  { rewrite length_written. destruct s; cbn [written]; rewrite ?map_length, ?seq_length; reflexivity. }
  split; [|exact L].
  pose proof (said_lengths _ _ Hs _ _ _ Hss s ltac:(rewrite E; apply in_elt)) as K.
  intros E0. rewrite E0 in L. destruct s; try discriminate He; cbn [length] in L; lia.
Qed.

Section Shape.
Context (j : nat) (s : statement) (se : shape_entry) (Hse : nth_error (shape_set ob) j = Some se).

Lemma nth_named : forall before names after, element_at ss j (before ++ SGroup names :: after) s ->
  names <> [] -> (forall t, In t after -> forall m, t <> SGroup m) ->
  map (nth_error (group_set ob)) (se_groups se) = map Some names.
Proof.
  intros before names after He Hn Ha. rewrite <- (active_groups_last before names after Hn Ha).
  eapply (nth_groups dbg input set); eauto.
Qed.

Lemma nth_default_group : forall before, element_at ss j before s ->
  (forall t, In t before -> forall m, t <> SGroup m) ->
  map (nth_error (group_set ob)) (se_groups se) = [Some (lit "default")].
Proof.
  intros before He Ha. rewrite (nth_groups dbg input set Hf Hok f Hs i ob n ss Hob Hss _ _ _ _ He Hse).
  now rewrite active_groups_none.
Qed.

Lemma nth_bare_front : forall before after, element_at ss j (before ++ SGroup [] :: after) s ->
  (forall t, In t before -> is_element t = false /\ forall m, t <> SGroup m) ->
  (forall t, In t after -> forall m, t <> SGroup m) ->
  map (nth_error (group_set ob)) (se_groups se) = [Some (lit "default")].
Proof.
  intros before after He Hb Ha. rewrite (nth_groups dbg input set Hf Hok f Hs i ob n ss Hob Hss _ _ _ _ He Hse).
  rewrite active_groups_bare by exact Hb. rewrite active_groups_none; [reflexivity|].
  intros t Hin. apply in_app_or in Hin. destruct Hin as [Hin|Hin]; [now apply Hb|now apply Ha].
Qed.

Lemma nth_bare_later : forall before t middle after, element_at ss j (before ++ t :: middle ++ SGroup [] :: after) s ->
  is_element t = true \/ (exists names, names <> [] /\ t = SGroup names) ->
  (forall t, In t after -> forall m, t <> SGroup m) ->
  se_groups se = [].
Proof.
  intros before t middle after He Hb Ha.
  pose proof (nth_groups dbg input set Hf Hok f Hs i ob n ss Hob Hss _ _ _ _ He Hse) as K.
  rewrite active_groups_bare_later in K by auto. now destruct (se_groups se).
Qed.

Lemma smoothing_last : forall after x, (forall t, In t after -> forall m, t <> SSmooth m) ->
  fold_left (fun active s => match s with SSmooth n => n | _ => active end) after x = x.
Proof.
  induction after as [|t after IH]; intros x H; [reflexivity|]. cbn [fold_left].
  rewrite IH by (intros t' Ht'; apply H; now right). specialize (H t (or_introl eq_refl)). destruct t; auto.
  exfalso. eapply H; eauto.
Qed.

Lemma nth_smoothing_last : forall before k after, element_at ss j (before ++ SSmooth k :: after) s ->
  (forall t, In t after -> forall m, t <> SSmooth m) ->
  nth_error (smoothing_group_set ob) (se_smoothing_group se) = Some k.
Proof.
  intros before k after He Ha. rewrite (nth_smoothing dbg input set Hf Hok f Hs i ob n ss Hob Hss _ _ _ _ He Hse).
  unfold active_smoothing. rewrite fold_left_app. cbn [fold_left]. now rewrite smoothing_last.
Qed.

Lemma nth_smoothing_default : forall before, element_at ss j before s ->
  (forall t, In t before -> forall m, t <> SSmooth m) ->
  nth_error (smoothing_group_set ob) (se_smoothing_group se) = Some 0%N.
Proof.
  intros before He Ha. rewrite (nth_smoothing dbg input set Hf Hok f Hs i ob n ss Hob Hss _ _ _ _ He Hse).
  unfold active_smoothing. now rewrite smoothing_last.
Qed.
End Shape.

Section Geometry.
Context (j : nat) (s : statement) (g : geometry) (Hg : In g (geometry_set ob)) (Hj : In j (shapes g)).

Lemma material_last : forall after x, (forall t, In t after -> forall m, t <> SUse m) ->
  fold_left (fun active s => match s with SUse m => Some m | _ => active end) after x = x.
Proof.
  induction after as [|t after IH]; intros x H; [reflexivity|]. cbn [fold_left].
  rewrite IH by (intros t' Ht'; apply H; now right). specialize (H t (or_introl eq_refl)). destruct t; auto.
  exfalso. eapply H; eauto.
Qed.

Lemma nth_material_last : forall before m after, element_at ss j (before ++ SUse m :: after) s ->
  (forall t, In t after -> forall m', t <> SUse m') -> material_name g = Some m.
Proof.
  intros before m after He Ha. rewrite (nth_material dbg input set Hf Hok f Hs i ob n ss Hob Hss _ _ _ _ He Hg Hj).
  unfold active_material. rewrite fold_left_app. cbn [fold_left]. now rewrite material_last.
Qed.

Lemma nth_material_none : forall before, element_at ss j before s ->
  (forall t, In t before -> forall m', t <> SUse m') -> material_name g = None.
Proof.
  intros before He Ha. rewrite (nth_material dbg input set Hf Hok f Hs i ob n ss Hob Hss _ _ _ _ He Hg Hj).
  unfold active_material. now rewrite material_last.
Qed.
End Geometry.
End Nth.

(** * The lines of libraries *)

Lemma library_lines_read : forall lines ts libs rest,
  Forall (fun names => ~ In nl names) lines ->
  reads_libraries (flat_map (fun names => lit "mtllib" :: names ++ [nl]) lines ++ ts) libs rest ->
  exists libs', libs = concat lines ++ libs' /\ reads_libraries ts libs' rest.
Proof.
  induction lines as [|names lines IH]; intros ts libs rest HF H; [exists libs; auto|].
  inversion HF; subst. cbn [flat_map] in H. rewrite <- !app_assoc in H. cbn [app] in H. rewrite <- !app_assoc in H. cbn [app] in H.
  apply (library_line_iff _ names _ (line_nl _ _ H2)) in H. destruct H as (libs' & -> & H).
  apply IH in H; auto. destruct H as (libs'' & -> & H). exists libs''. cbn [concat]. now rewrite app_assoc.
Qed.

Lemma parsed_lines : forall dbg input set lines ts, fits input -> parse dbg input = Ok set ->
  tokenizes input (flat_map (fun names => lit "mtllib" :: names ++ [nl]) lines ++ ts) ->
  Forall (fun names => ~ In nl names) lines ->
  match ts with [] => True | t :: _ => t <> nl /\ t <> lit "mtllib" end ->
  material_libraries set = concat lines.
Proof.
  intros dbg input set lines ts Hf Hok Ht HF Hts. destruct (parsed_library_lines _ _ _ _ Hf Hok Ht) as [rest H].
  apply library_lines_read in H; auto. destruct H as (libs' & -> & H). inversion H; subst.
  - exfalso. now apply (proj1 Hts).
  - exfalso. now apply (proj2 Hts).
  - now rewrite app_nil_r.
Qed.
