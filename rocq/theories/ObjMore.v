(** Further facts about readings: where they lead, where their names come from,
    how many tokens they take, and which line an error is on. *)
From Verif Require Import ObjModel ObjErrorSpec ObjView LexerProofs ConsumeProofs ObjAccept ObjFile ObjTop
  ObjMeaning ObjReach ObjUnique ObjExtend ObjFacts.
Local Open Scope list_scope.

(** * What has been reached is part of the file *)

Definition rest_none (done : list (bytes * list statement)) (rest : list bytes) (more : list (bytes * list statement)) : Prop :=
  reads_objects (counts_in done []) rest more [] \/
  (done = [] /\ ~ at_object_end rest /\
   exists ss mid os, more = ([], ss) :: os /\ reads_body no_counts no_counts rest ss mid /\
     reads_objects (count_all no_counts ss) mid os []).

Lemma reaches_file : forall T done cur rest, reaches T done cur rest -> forall f, reads_file T f [] ->
  match cur with
  | None => exists more, file_objects f = done ++ more /\ rest_none done rest more
  | Some (n, ss) => exists ss' mid more, file_objects f = done ++ (n, ss ++ ss') :: more /\
      reads_body (counts_in done []) (counts_in done ss) rest ss' mid /\
      reads_objects (counts_in done (ss ++ ss')) mid more []
  end.
Proof.
  intros T done cur rest H.
  induction H as [libs rest H|rest H IH Hn|done name rest H IH|done [name ss] rest H IH|done name ss s mid rest H IH Hs|done [name ss] rest H IH He Hd];
    intros f Hf.
  - inversion Hf as [ts1 libs1 mid os rest1 Hl Ho|ts1 libs1 mid ss mid' os rest1 Hl He Hb Ho]; subst;
      destruct (libraries_det _ _ _ H _ _ Hl) as [<- <-].
    + exists os. split; auto. now left.
    + exists (([], ss) :: os). split; auto. right. split; auto. split; auto. exists ss, mid', os. auto.
  - destruct (IH f Hf) as (more & E & [K|(_ & _ & ss & mid & os & -> & Hb & Ho)]).
    + destruct (objects_at_end _ _ _ _ K Hn) as [_ E']. exfalso. apply Hn. rewrite <- E'. exact I.
    + exists ss, mid, os. auto.
  - destruct (IH f Hf) as (more & E & [K|(_ & K & _)]).
    + inversion K; subst. exists ss, mid, os. auto.
    + exfalso. apply K. reflexivity.
  - destruct (IH f Hf) as (ss' & mid & more & E & Hb & Ho). exists ss', mid, more. split; auto. split; auto.
    inversion Hb; subst; auto.
    + match goal with K : at_object_end _ |- _ => discriminate K end.
    + exfalso. eapply statement_not_nl; eauto.
  - destruct (IH f Hf) as (ss' & mid' & more & E & Hb & Ho). inversion Hb; subst.
    + exfalso. eapply statement_end; eauto.
    + exfalso. eapply statement_not_nl; eauto.
    + match goal with K : reads_statement _ _ mid _ _ |- _ => destruct (statement_det _ _ _ _ _ _ _ Hs K) as [<- <-] end.
      exists ss0, mid', more. rewrite <- app_assoc. split; auto. split; auto.
      replace (counts_in done (ss ++ [s])) with (count (counts_in done ss) s); auto. unfold counts_in. now rewrite count_all_app.
  - destruct (IH f Hf) as (ss' & mid' & more & E & Hb & Ho). inversion Hb; subst.
    + exists more. rewrite app_nil_r in *. rewrite E, <- app_assoc. split; auto. left.
      replace (counts_in (done ++ [(name, ss)]) []) with (counts_in done ss); auto.
      unfold counts_in, count_objects. rewrite fold_left_app. reflexivity.
    + discriminate He.
    + exfalso. eapply statement_end; eauto.
Qed.

(** * Names are tokens *)

Definition names_in (s : statement) : list bytes :=
  match s with
  | SGroup names => names
  | SUse m => [m]
  | _ => []
  end.

Lemma line_names : forall ts names rest, reads_line ts names rest -> incl names ts /\ incl rest ts /\ ~ In nl names.
Proof.
  intros ts names rest H. inversion H; subst.
  - split; [apply incl_refl|]. split; [intros x []|auto].
  - split; [apply incl_appl, incl_refl|]. split; [apply incl_appr, incl_tl, incl_refl|auto].
Qed.

Lemma optional_rest : forall d ts x rest, reads_optional d ts x rest -> incl rest ts.
Proof. intros d ts x rest H. inversion H; subst; auto using incl_refl, incl_tl. Qed.

Lemma refs_rest : forall base now ts rs rest, reads_refs base now ts rs rest -> incl rest ts.
Proof. intros base now ts rs rest H. induction H; auto using incl_refl, incl_tl. Qed.

Lemma statement_names : forall base now ts s rest, reads_statement base now ts s rest ->
  incl (names_in s) ts /\ incl rest ts /\ ~ In nl (names_of s).
Proof.
  intros base now ts s rest H.
  assert (Hnil : forall l : list bytes, incl [] l) by (intros l x []).
  destruct H; cbn [names_in names_of].
  - apply optional_rest in H2. auto 10 using incl_tl.
  - apply optional_rest in H0, H1. split; auto. split; auto. apply incl_tl, incl_tl. eapply incl_tran; eauto.
  - auto 10 using incl_tl, incl_refl.
  - apply line_names in H. destruct H as (H1 & H2 & H3). auto using incl_tl.
  - auto 10 using incl_tl, incl_refl.
  - split; [|split; auto using incl_tl, incl_refl]. intros x [<-|[]]. right. now left.
  - apply line_names in H. destruct H as (H2 & H3 & H4). auto using incl_tl.
  - apply refs_rest in H. auto using incl_tl.
  - apply refs_rest in H. auto using incl_tl.
Qed.

Lemma body_names : forall base now ts ss rest, reads_body base now ts ss rest ->
  incl (flat_map names_in ss) ts /\ incl rest ts /\ ~ In nl (flat_map names_of ss).
Proof.
  intros base now ts ss rest H. induction H as [now ts He|now ts ss rest H IH|now ts s mid ss rest Hs H IH].
  - split; [intros x []|]. split; [apply incl_refl|auto].
  - destruct IH as (I1 & I2 & I3). auto using incl_tl.
  - destruct IH as (I1 & I2 & I3). apply statement_names in Hs. destruct Hs as (S1 & S2 & S3). cbn [flat_map].
    split; [apply incl_app; auto; eapply incl_tran; eauto|]. split; [eapply incl_tran; eauto|].
    intros K. apply in_app_or in K. tauto.
Qed.

Lemma objects_names : forall now ts os rest, reads_objects now ts os rest ->
  incl (map fst os) ts /\ incl (flat_map (fun o => flat_map names_in (snd o)) os) ts /\
  ~ In nl (flat_map (fun o => flat_map names_of (snd o)) os).
Proof.
  intros now ts os rest H. induction H as [now ts|now n ts ss mid os rest Hb H IH].
  - repeat split; try (intros x []). auto.
  - destruct IH as (I1 & I2 & I3). apply body_names in Hb. destruct Hb as (B1 & B2 & B3).
    assert (Ht : incl mid (lit "o" :: n :: nl :: ts)) by auto using incl_tl.
    cbn [map flat_map fst snd]. split; [|split].
    + intros x [<-|Hx]; [right; now left|]. apply Ht, I1, Hx.
    + apply incl_app; [auto using incl_tl|]. eapply incl_tran; eauto.
    + intros K. apply in_app_or in K. tauto.
Qed.

Lemma libraries_names : forall ts libs rest, reads_libraries ts libs rest ->
  incl libs ts /\ incl rest ts /\ ~ In nl libs.
Proof.
  intros ts libs rest H. induction H as [ts libs rest H IH|ts names mid libs rest Hl H IH|ts He].
  - destruct IH as (I1 & I2 & I3). auto using incl_tl.
  - destruct IH as (I1 & I2 & I3). apply line_names in Hl. destruct Hl as (L1 & L2 & L3).
    split; [apply incl_tl, incl_app; auto; eapply incl_tran; eauto|].
    split; [apply incl_tl; eapply incl_tran; eauto|]. intros K. apply in_app_or in K. tauto.
  - split; [intros x []|]. split; [apply incl_refl|auto].
Qed.

Lemma file_names : forall ts f, reads_file ts f [] ->
  incl (file_libraries f) ts /\ ~ In nl (file_libraries f) /\
  (forall i n ss, nth_error (file_objects f) i = Some (n, ss) ->
     (In n ts \/ (i = 0 /\ n = [])) /\ incl (flat_map names_in ss) ts /\ ~ In nl (flat_map names_of ss)).
Proof.
  intros ts f H.
  assert (Hflat : forall (g : statement -> list bytes) (P : bytes -> Prop) (os : list (bytes * list statement)),
    (forall x, In x (flat_map (fun o => flat_map g (snd o)) os) -> P x) ->
    forall i n ss, nth_error os i = Some (n, ss) -> forall x, In x (flat_map g ss) -> P x).
  { intros g P os HP i n ss Hi x Hx. apply HP. apply in_flat_map. exists (n, ss). split; auto. eapply nth_error_In; eauto. }
  inversion H as [ts1 libs mid os rest Hl Ho|ts1 libs mid ss mid' os rest Hl He Hb Ho]; subst; cbn [file_libraries file_objects];
    apply libraries_names in Hl; destruct Hl as (L1 & L2 & L3); split; auto; split; auto.
  - apply objects_names in Ho. destruct Ho as (O1 & O2 & O3). intros i n ss Hi. split; [|split].
    + left. apply L2, O1. apply in_map_iff. exists (n, ss). split; auto. eapply nth_error_In; eauto.
    + intros x Hx. apply L2. eapply (Hflat names_in (fun x => In x mid)); eauto.
    + intros K. eapply (Hflat names_of (fun x => x <> nl)); eauto. intros x Hx ->. auto.
  - apply body_names in Hb. destruct Hb as (B1 & B2 & B3).
    apply objects_names in Ho. destruct Ho as (O1 & O2 & O3). intros [|i] n ss' Hi; cbn in Hi.
    + inversion Hi; subst. split; [now right|]. split; [eapply incl_tran; eauto|auto].
    + split; [|split].
      * left. apply L2, B2, O1. apply in_map_iff. exists (n, ss'). split; auto. eapply nth_error_In; eauto.
      * intros x Hx. apply L2, B2. eapply (Hflat names_in (fun x => In x mid')); eauto.
      * intros K. eapply (Hflat names_of (fun x => x <> nl)); eauto. intros x Hx ->. auto.
Qed.

(** * Tokens of a text *)

(** * Tokens taken *)

(** The least number of tokens a statement takes. *)
Definition cost (s : statement) : nat :=
  match s with
  | SVertex _ => 4
  | STexture _ => 2
  | SNormal _ => 4
  | SGroup names => S (length names)
  | SSmooth _ => 2
  | SUse _ => 2
  | SPoint ks => S (length ks)
  | SLine rs => S (length rs)
  | SFace rs => S (length rs)
  end.

Definition total (g : statement -> nat) (ss : list statement) : nat := list_sum (map g ss).

Lemma line_cost : forall ts names rest, reads_line ts names rest -> length rest + length names <= length ts.
Proof. intros ts names rest H. inversion H; subst; rewrite ?app_length; cbn; lia. Qed.

Lemma optional_cost : forall d ts x rest, reads_optional d ts x rest -> length rest <= length ts.
Proof. intros d ts x rest H. inversion H; subst; cbn; lia. Qed.

Lemma refs_cost : forall base now ts rs rest, reads_refs base now ts rs rest -> length rest + length rs <= length ts.
Proof. intros base now ts rs rest H. induction H; cbn; lia. Qed.

Lemma statement_cost : forall base now ts s rest, reads_statement base now ts s rest -> length rest + cost s <= length ts.
Proof.
  intros base now ts s rest H. destruct H; cbn [length cost].
  - apply optional_cost in H2. lia.
  - apply optional_cost in H0, H1. lia.
  - lia.
  - apply line_cost in H. lia.
  - lia.
  - lia.
  - apply line_cost in H. assert (length toks = length ks) by (clear - H0; induction H0; cbn; congruence). lia.
  - apply refs_cost in H. lia.
  - apply refs_cost in H. lia.
Qed.

Lemma body_cost : forall base now ts ss rest, reads_body base now ts ss rest -> length rest + total cost ss <= length ts.
Proof.
  intros base now ts ss rest H. induction H; cbn [length total map list_sum fold_right] in *.
  - unfold total. cbn. lia.
  - lia.
  - apply statement_cost in H. unfold total in *. cbn. fold (list_sum (map cost ss)). lia.
Qed.

Definition total_objects (g : statement -> nat) (os : list (bytes * list statement)) : nat :=
  list_sum (map (fun o => total g (snd o)) os).

Lemma objects_cost : forall now ts os rest, reads_objects now ts os rest ->
  length rest + 3 * length os + total_objects cost os <= length ts.
Proof.
  intros now ts os rest H. induction H.
  - cbn. lia.
  - apply body_cost in H. unfold total_objects in *. cbn [map list_sum fold_right length snd].
    fold (list_sum (map (fun o => total cost (snd o)) os)). lia.
Qed.

Lemma libraries_cost : forall ts libs rest, reads_libraries ts libs rest -> length rest + length libs <= length ts.
Proof.
  intros ts libs rest H. induction H; cbn [length]; rewrite ?app_length; try apply line_cost in H; lia.
Qed.

Lemma body_nonempty : forall base now ts ss rest, reads_body base now ts ss rest -> ~ at_object_end ts -> length rest < length ts.
Proof.
  intros base now ts ss rest H He. inversion H; subst.
  - contradiction.
  - apply body_cost in H0. cbn. lia.
  - apply statement_cost in H0. apply body_cost in H1. destruct s; cbn in H0; lia.
Qed.

Lemma file_cost : forall ts f, reads_file ts f [] ->
  length (file_libraries f) + total_objects cost (file_objects f) <= length ts /\
  length (file_objects f) <= length ts.
Proof.
  intros ts f H. inversion H as [ts1 libs mid os rest Hl Ho|ts1 libs mid ss mid' os rest Hl He Hb Ho]; subst; cbn [file_libraries file_objects];
    apply libraries_cost in Hl; apply objects_cost in Ho; cbn [length] in Ho.
  - lia.
  - pose proof (body_nonempty _ _ _ _ _ Hb He). apply body_cost in Hb.
    unfold total_objects in *. cbn [map list_sum fold_right length snd]. fold (list_sum (map (fun o => total cost (snd o)) os)). lia.
Qed.

Lemma total_le : forall g h ss, (forall s, g s <= h s) -> total g ss <= total h ss.
Proof. intros g h ss H. unfold total, list_sum. induction ss as [|s ss IH]; cbn [map fold_right]; [lia|]. specialize (H s). lia. Qed.

Lemma length_flat_total : forall A (g : statement -> list A) ss, length (flat_map g ss) = total (fun s => length (g s)) ss.
Proof. intros A g ss. induction ss as [|s ss IH]; cbn; [reflexivity|]. rewrite app_length, IH. reflexivity. Qed.

Lemma total_const : forall k (g : statement -> nat) ss, k * total g ss = total (fun s => k * g s) ss.
Proof. intros k g ss. unfold total, list_sum. induction ss as [|s ss IH]; cbn [map fold_right]; [lia|]. now rewrite Nat.mul_add_distr_l, IH. Qed.

(** Sizes of the parts of an object. *)
Lemma sizes : forall base n ss,
  let ob := object_of base n ss in
  4 * length (vertex_set ob) <= total cost ss /\
  2 * length (texture_vertex_set ob) <= total cost ss /\
  4 * length (normal_vertex_set ob) <= total cost ss /\
  length (element_set ob) <= total cost ss /\
  length (shape_set ob) <= total cost ss /\
  length (group_set ob) <= total cost ss /\
  length (smoothing_group_set ob) <= total cost ss.
Proof.
  intros base n ss ob. cbn [ob object_of vertex_set texture_vertex_set normal_vertex_set element_set shape_set group_set smoothing_group_set].
  assert (Hd : forall A (decl : statement -> list A) d, (forall s, length (decl s) + (if is_element s then 1 else 0) <= cost s) ->
    length (declared decl d ss) <= total cost ss).
  { intros A decl d Hc.
    assert (Hle : forall l, length (flat_map decl l) <= total cost l).
    { intros l. rewrite length_flat_total. apply total_le. intros s'. specialize (Hc s'). lia. }
    clear ob. induction ss as [|s ss' IH]; [cbn; lia|]. specialize (Hle ss'). specialize (Hc s).
    change (total cost (s :: ss')) with (cost s + total cost ss'). cbn [declared].
    destruct (is_element s) eqn:E.
    - cbn [length]. lia.
    - destruct (decl s) as [|x xs] eqn:Es; [lia|]. rewrite app_length. lia. }
  assert (Hel : length (all_elements base ss) <= total cost ss).
  { rewrite length_all_written, length_flat_total. apply total_le. intros []; cbn; rewrite ?map_length, ?seq_length; lia. }
  repeat split.
  - unfold all_vertices. rewrite length_flat_total, total_const. apply total_le. intros []; cbn; lia.
  - unfold all_texture_vertices. rewrite length_flat_total, total_const. apply total_le. intros []; cbn; lia.
  - unfold all_normals. rewrite length_flat_total, total_const. apply total_le. intros []; cbn; lia.
  - exact Hel.
  - rewrite length_shapes. exact Hel.
  - apply Hd. intros []; cbn; lia.
  - apply Hd. intros []; cbn; lia.
Qed.

Lemma length_segments : forall base ss m i n, length (segments m base ss i n) <= S (total (fun s => match s with SUse _ => 1 | _ => 0 end) ss).
Proof.
  intros base ss. induction ss as [|s ss IH]; intros m i n; [cbn; lia|].
  change (total (fun s => match s with SUse _ => 1 | _ => 0 end) (s :: ss))
    with ((match s with SUse _ => 1 | _ => 0 end) + total (fun s => match s with SUse _ => 1 | _ => 0 end) ss).
  destruct s; cbn [segments length];
    match goal with |- context [segments ?m ?b ss ?i ?n] => specialize (IH m i n) end; lia.
Qed.

Lemma length_drop_empty : forall gs, length (drop_empty gs) <= length gs.
Proof.
  induction gs as [|g gs IH]; [auto|]. destruct gs as [|g' gs]; [auto|].
  assert (E : drop_empty (g :: g' :: gs) = match shapes g with [] => drop_empty (g' :: gs) | _ => g :: drop_empty (g' :: gs) end) by reflexivity.
  rewrite E. destruct (shapes g); cbn [length] in *; lia.
Qed.

Lemma size_geometries : forall base n ss, drawable (n, ss) -> length (geometry_set (object_of base n ss)) <= total cost ss.
Proof.
  intros base n ss (s & Hs & Hd). cbn [geometry_set object_of snd] in *.
  pose proof (length_drop_empty (segments None base ss 0 0)). pose proof (length_segments base ss None 0 0).
  assert (S (total (fun s => match s with SUse _ => 1 | _ => 0 end) ss) <= total cost ss); [|lia].
  clear - Hs Hd. induction ss as [|s' ss IH]; [destruct Hs|].
  change (total cost (s' :: ss)) with (cost s' + total cost ss).
  change (total (fun s => match s with SUse _ => 1 | _ => 0 end) (s' :: ss))
    with ((match s' with SUse _ => 1 | _ => 0 end) + total (fun s => match s with SUse _ => 1 | _ => 0 end) ss).
  destruct Hs as [<-|Hs].
  - assert (total (fun s => match s with SUse _ => 1 | _ => 0 end) ss <= total cost ss) by (apply total_le; intros []; cbn; lia).
    destruct Hd as [Hd|[m ->]]; [destruct s'; try discriminate; cbn [cost]; lia|cbn [cost]; lia].
  - specialize (IH Hs). destruct s'; cbn [cost]; lia.
Qed.

(** * Lines of errors *)

Lemma parse_debug_err : forall dbg input e, parse dbg input = Err e -> parse false input = Err e.
Proof.
  intros [|] input e H; auto. unfold parse in *.
  match goal with |- fst (parse_objset false ?n ?p) = _ => destruct (SourceProofs.parse_objset_debug lexer_source n p) as [E|[E|E]] end; congruence.
Qed.

Lemma count_nl_none : forall l, ~ In nl l -> count_nl l = 0.
Proof.
  induction l as [|t l IH]; intros H; [reflexivity|]. rewrite count_nl_cons, IH by (intro; apply H; now right).
  destruct (bytes_eqb_spec t nl); [exfalso; apply H; now left|reflexivity].
Qed.

Lemma count_nl_one : forall t, count_nl [t] <= 1.
Proof. intros t. rewrite count_nl_cons. destruct (bytes_eqb t nl); cbn; auto. Qed.

(** The tokens taken before [rest]: newlines at most as the last one. *)
Definition takes (ts rest : list bytes) : Prop :=
  exists used, ts = used ++ rest /\ count_nl used <= 1.

Lemma takes_snoc : forall pre t rest, ~ In nl pre -> takes (pre ++ t :: rest) rest.
Proof.
  intros pre t rest H. exists (pre ++ [t]). split; [now rewrite <- app_assoc|].
  rewrite count_nl_app, count_nl_none by auto. apply count_nl_one.
Qed.

Lemma takes_none : forall pre rest, ~ In nl pre -> takes (pre ++ rest) rest.
Proof. intros pre rest H. exists pre. split; auto. rewrite count_nl_none; auto. Qed.

Lemma takes_cons : forall t ts rest, t <> nl -> takes ts rest -> takes (t :: ts) rest.
Proof.
  intros t ts rest H (used & -> & Hc). exists (t :: used). split; auto. rewrite count_nl_cons. destruct (bytes_eqb_spec t nl); [contradiction|exact Hc].
Qed.

Lemma not_float_takes : forall ts c rest, not_float ts c rest -> takes ts rest.
Proof.
  intros ts c rest H. inversion H; subst.
  - exists []. split; auto.
  - apply (takes_snoc [] t rest). auto.
Qed.

Lemma refs_takes : forall base now ts rs rest, reads_refs base now ts rs rest -> takes ts rest.
Proof.
  intros base now ts rs rest H. induction H.
  - exists []. auto.
  - apply (takes_snoc [] t rest). auto.
  - apply takes_cons; auto. intros ->. eapply nl_not_ref; eauto.
Qed.

Lemma valid_refs_no_nl : forall base now toks rs, Forall2 (valid_ref base now) toks rs -> ~ In nl toks.
Proof.
  intros base now toks rs H. induction H; [auto|]. intros [->|K]; [|auto]. eapply nl_not_ref; eauto.
Qed.

Lemma points_no_nl : forall base now toks ks, Forall2 (point_token base now) toks ks -> ~ In nl toks.
Proof.
  intros base now toks ks H. induction H as [|t k toks ks [Ht _] H IH]; [auto|]. intros [->|K]; [|auto]. eapply nl_not_number; eauto.
Qed.

Lemma float_not_nl : forall t x, float_token t x -> t <> nl.
Proof. intros t x H ->. eapply nl_not_float; eauto. Qed.

Lemma fails_statement_takes : forall base now ts c rest, fails_statement base now ts c rest -> takes ts rest.
Proof.
  intros base now ts c rest H.
  destruct H; repeat (first [ eapply not_float_takes; eassumption | eapply refs_takes; eassumption
                            | apply takes_cons; [first [discriminate|eapply float_not_nl; eassumption]|] ]).
  - exists []. auto.
  - apply (takes_snoc [] t rest). auto.
  - exists []. auto.
  - exists []. auto.
  - apply takes_snoc. eapply points_no_nl; eauto.
  - rewrite <- (app_nil_r toks). apply takes_none. eapply valid_refs_no_nl; eauto.
  - apply takes_snoc. eapply valid_refs_no_nl; eauto.
  - exists []. auto.
Qed.

Lemma fails_header_takes : forall ts c rest, fails_header ts c rest -> takes ts rest.
Proof.
  intros ts c rest H. destruct H; apply takes_cons; try discriminate.
  - exists []. auto.
  - apply (takes_snoc [] name []). auto.
  - exists ([name] ++ [t]). split; auto. rewrite count_nl_app, (count_nl_none [t]) by (intros [->|[]]; auto). pose proof (count_nl_one name). lia.
Qed.

Lemma fails_file_at : forall T c rest, fails_file T c rest <-> exists ts, fails_at T ts c rest.
Proof.
  intros T c rest. rewrite fails_file_reaches. unfold fails_at. split.
  - intros [(done & n & ss & mid & H1 & H2)|(done & mid & H1 & H2)]; exists mid; [left|right]; eauto 8.
  - intros (ts & [(done & n & ss & H1 & H2)|(done & H1 & H2)]); [left|right]; eauto 8.
Qed.

Lemma suffix_split : forall (T a b : list bytes), forall used, T = a ++ b -> forall x, x ++ used ++ b = T -> a = x ++ used.
Proof. intros T a b used -> x H. rewrite app_assoc in H. now apply app_inv_tail in H. Qed.

(** What is reached is a suffix. *)
Lemma line_suffix : forall ts names rest, reads_line ts names rest -> exists u, ts = u ++ rest.
Proof. intros ts names rest H. inversion H; subst; [exists names; now rewrite app_nil_r|]. exists (names ++ [nl]). now rewrite <- app_assoc. Qed.

Lemma optional_suffix : forall d ts x rest, reads_optional d ts x rest -> exists u, ts = u ++ rest.
Proof. intros d ts x rest H. inversion H; subst; [exists [t]|exists []|exists []]; reflexivity. Qed.

Lemma statement_suffix : forall base now ts s rest, reads_statement base now ts s rest -> exists u, ts = u ++ rest.
Proof.
  assert (Hc : forall (t : bytes) ts rest, (exists u, ts = u ++ rest) -> exists u, t :: ts = u ++ rest)
    by (intros t ts rest [u ->]; now exists (t :: u)).
  intros base now ts s rest H.
  destruct H; repeat apply Hc.
  - eapply optional_suffix; eauto.
  - apply optional_suffix in H0, H1. destruct H0 as [p ->], H1 as [q ->]. exists (p ++ q). now rewrite app_assoc.
  - now exists [].
  - eapply line_suffix; eauto.
  - now exists [].
  - now exists [].
  - eapply line_suffix; eauto.
  - apply refs_takes in H. destruct H as (u & -> & _). eauto.
  - apply refs_takes in H. destruct H as (u & -> & _). eauto.
Qed.

Lemma libraries_suffix : forall ts libs rest, reads_libraries ts libs rest -> exists u, ts = u ++ rest.
Proof.
  intros ts libs rest H. induction H as [ts libs rest H [u ->]|ts names mid libs rest Hl H [u ->]|ts He].
  - now exists (nl :: u).
  - apply line_suffix in Hl. destruct Hl as [u' ->]. exists (lit "mtllib" :: u' ++ u). cbn. now rewrite <- app_assoc.
  - now exists [].
Qed.

Lemma reaches_suffix : forall T done cur rest, reaches T done cur rest -> exists u, T = u ++ rest.
Proof.
  intros T done cur rest H. induction H as [libs rest H|rest H IH Hn|done name rest H IH|done o rest H IH|done name ss s mid rest H IH Hs|done o rest H IH He Hd]; auto.
  - eapply libraries_suffix; eauto.
  - destruct IH as [v Hv]. exists (v ++ [lit "o"; name; nl]). now rewrite <- app_assoc.
  - destruct IH as [v Hv]. exists (v ++ [nl]). now rewrite <- app_assoc.
  - destruct IH as [v Hv]. apply statement_suffix in Hs. destruct Hs as [v' Hv']. exists (v ++ v'). now rewrite <- app_assoc, <- Hv'.
Qed.

Lemma fails_at_suffix : forall T ts c rest, fails_at T ts c rest -> exists u, T = u ++ ts.
Proof. intros T ts c rest [(done & n & ss & H & _)|(done & H & _)]; eapply reaches_suffix; eauto. Qed.

Lemma fails_at_takes : forall T ts c rest, fails_at T ts c rest -> takes ts rest.
Proof. intros T ts c rest [(done & n & ss & _ & H)|(done & _ & H)]; eauto using fails_statement_takes, fails_header_takes. Qed.

Lemma line_after_app : forall a b, line_after (a ++ b) = line_after a + count_occ ascii_dec b LF.
Proof. intros a b. unfold line_after. rewrite count_occ_app. lia. Qed.

Lemma error_place : forall dbg input e, fits input -> parse dbg input = Err e ->
  exists x y z tx ty tz, input = x ++ y ++ z /\
    tokenizes x tx /\ tokenizes y ty /\ tokenizes z tz /\ tokenizes input (tx ++ ty ++ tz) /\
    fails_at (tx ++ ty ++ tz) (ty ++ tz) (err_kind e, err_message e) tz /\
    err_line_number e = line_after (x ++ y) /\
    line_after x <= err_line_number e <= line_after x + 1.
Proof.
  intros dbg input e Hf H. apply parse_debug_err in H. apply parse_err_iff in H; auto.
  destruct H as (before & after & ts & rest & c & -> & H1 & H2 & H3 & Hfail & ->).
  apply fails_file_at in Hfail. destruct Hfail as (mid & Hat).
  pose proof (fails_at_takes _ _ _ _ Hat) as (used & -> & Hc).
  destruct (fails_at_suffix _ _ _ _ Hat) as [u Hu].
  assert (E : ts = u ++ used) by (eapply suffix_split; [reflexivity|symmetry; exact Hu]).
  destruct (tokenizes_split _ _ H1 _ _ E) as (x & y & -> & Hx & Hy).
  exists x, y, after, u, used, rest. subst ts. cbn [err_line_number err_kind err_message].
  rewrite <- !app_assoc in *. repeat split; auto.
  - destruct c; exact Hat.
  - rewrite line_after_app. lia.
  - rewrite line_after_app. rewrite (count_nl_line _ _ Hy) in Hc. lia.
Qed.

Lemma fails_here_err : forall input before after ts w rest done n ss c, fits input ->
  input = before ++ after -> tokenizes before ts -> tokenizes after (w :: rest) -> tokenizes input (ts ++ w :: rest) ->
  reaches (ts ++ w :: rest) done (Some (n, ss)) (w :: rest) ->
  fails_statement (counts_in done []) (counts_in done ss) (w :: rest) c (w :: rest) ->
  parse false input = Err (mkParseError (line_after before) (fst c) (snd c)).
Proof.
  intros input before after ts w rest done n ss c Hf Ei H1 H2 H3 Hr Hs. apply parse_err_iff; auto.
  exists before, after, ts, (w :: rest), c. repeat split; auto.
  apply fails_file_at. exists (w :: rest). left. eauto 6.
Qed.

(** * Statements of the properties *)

Lemma panic_place : forall input x, fits input ->
  parse false input = Panic x <->
  x = PanicIndex /\
  exists ts done o rest, tokenizes input ts /\ reaches ts done (Some o) rest /\ at_object_end rest /\ ~ drawable o.
Proof.
  intros input x Hf. rewrite parse_panic_iff by auto. split; intros (-> & H); split; auto.
  - destruct H as (ts & rest & Ht & Hp). apply panics_file_reaches in Hp. destruct Hp as (done & o & H). exists ts, done, o, rest. tauto.
  - destruct H as (ts & done & o & rest & Ht & Hp). exists ts, rest. split; auto. apply panics_file_reaches. eauto.
Qed.

Lemma missing_numbers : forall base now s rest rest',
  (forall a b c, reads_statement base now (lit "v" :: a :: b :: c :: nl :: rest) s rest' ->
     exists x y z, s = SVertex (mkVertex x y z f64_one)) /\
  (forall a, reads_statement base now (lit "vt" :: a :: nl :: rest) s rest' ->
     exists u, s = STexture (mkTextureVertex u f64_zero f64_zero)) /\
  (forall a b, (exists v, float_token b v) -> reads_statement base now (lit "vt" :: a :: b :: nl :: rest) s rest' ->
     exists u v, s = STexture (mkTextureVertex u v f64_zero)).
Proof.
  assert (Hopt : forall d ts x r, reads_optional d (nl :: ts) x r -> x = d /\ r = nl :: ts).
  { intros d ts x r H. inversion H; subst; auto. exfalso. eapply nl_not_float; eauto. }
  intros base now s rest rest'. split; [|split].
  - intros a b c H. inversion H; subst. match goal with K : reads_optional _ (nl :: _) _ _ |- _ => apply Hopt in K; destruct K as [-> _] end. eauto.
  - intros a H. inversion H; subst.
    match goal with K : reads_optional _ (nl :: _) _ _ |- _ => apply Hopt in K; destruct K as [-> ->] end.
    match goal with K : reads_optional _ (nl :: _) _ _ |- _ => apply Hopt in K; destruct K as [-> _] end. eauto.
  - intros a b [v Hv] H. inversion H; subst.
    match goal with K : reads_optional _ (b :: _) _ _ |- _ => inversion K; subst end.
    + match goal with K : reads_optional _ (nl :: _) _ _ |- _ => apply Hopt in K; destruct K as [-> _] end. eauto.
    + exfalso. match goal with K : forall x, ~ float_token b x |- _ => eapply K; eauto end.
Qed.

Section Nth.
Context (dbg : bool) (input : bytes) (set : object_set) (Hf : fits input) (Hok : parse dbg input = Ok set).
Context (f : obj_file) (Hs : says input f) (i : nat) (ob : object) (n : bytes) (ss : list statement).
Context (Hob : nth_error (objects set) i = Some ob) (Hss : nth_error (file_objects f) i = Some (n, ss)).

Lemma nth_faces : forall before rs after, ss = before ++ SFace rs :: after ->
  let r j := local_ref (base_of f i) (nth_ref rs j) in
  exists front back,
    element_set ob = front ++ map (fun j => Face (r 0) (r (j + 1)) (r (j + 2))) (seq 0 (length rs - 2)) ++ back /\
    length front = length (flat_map written before).
Proof. intros before rs after E r. subst r. cbv beta. rewrite <- faces_of. eapply nth_elements; eauto. Qed.

Lemma nth_lines : forall before rs after, ss = before ++ SLine rs :: after ->
  let r j := local_ref (base_of f i) (nth_ref rs j) in
  exists front back,
    element_set ob = front ++ map (fun j => Line (r j) (r (j + 1))) (seq 0 (length rs - 1)) ++ back /\
    length front = length (flat_map written before).
Proof. intros before rs after E r. subst r. cbv beta. rewrite <- lines_of. eapply nth_elements; eauto. Qed.

Lemma nth_points : forall before ks after, ss = before ++ SPoint ks :: after ->
  exists front back,
    element_set ob = front ++ map (fun k => Point (V (k - 1 - n_v (base_of f i)))) ks ++ back /\
    length front = length (flat_map written before).
Proof.
  intros before ks after E.
  replace (map (fun k => Point (V (k - 1 - n_v (base_of f i)))) ks) with (elements_of (base_of f i) (SPoint ks)).
  - eapply nth_elements; eauto.
  - cbn [elements_of]. apply map_ext. intros k. unfold local_index. do 2 f_equal. lia.
Qed.

Lemma nth_group_set :
  ((exists before s after, ss = before ++ s :: after /\ is_element s = true /\ declared_names before = []) ->
     group_set ob = lit "default" :: declared_names ss) /\
  (~ (exists before s after, ss = before ++ s :: after /\ is_element s = true /\ declared_names before = []) ->
     group_set ob = declared_names ss).
Proof.
  destruct (declared_split _ names_of (lit "default") ss) as [H1 H2]; [intros []; auto; discriminate|].
  rewrite (nth_is _ _ _ Hf Hok f Hs i ob n ss Hob Hss). cbn [group_set object_of]. split.
  - intros (before & s & after & E & He & Hd). eapply H1; eauto.
  - intros H. apply H2. intros before s after E He Hd. apply H. eauto 8.
Qed.

Lemma nth_smoothing_set :
  ((exists before s after, ss = before ++ s :: after /\ is_element s = true /\ declared_smoothing before = []) ->
     smoothing_group_set ob = 0%N :: declared_smoothing ss) /\
  (~ (exists before s after, ss = before ++ s :: after /\ is_element s = true /\ declared_smoothing before = []) ->
     smoothing_group_set ob = declared_smoothing ss).
Proof.
  destruct (declared_split _ smoothing_of 0%N ss) as [H1 H2]; [intros []; auto; discriminate|].
  rewrite (nth_is _ _ _ Hf Hok f Hs i ob n ss Hob Hss). cbn [smoothing_group_set object_of]. split.
  - intros (before & s & after & E & He & Hd). eapply H1; eauto.
  - intros H. apply H2. intros before s after E He Hd. apply H. eauto 8.
Qed.
End Nth.

Lemma said_lengths : forall input f, says input f -> forall i n ss, nth_error (file_objects f) i = Some (n, ss) ->
  forall s, In s ss ->
  match s with
  | SFace rs => 3 <= length rs
  | SLine rs => 2 <= length rs
  | SPoint ks => 1 <= length ks
  | _ => True
  end.
Proof.
  intros input f Hs i n ss Hi s Hin. pose proof (proper_nth _ _ _ _ (said_proper _ _ Hs) Hi) as Hp. cbn [snd] in Hp.
  apply in_split in Hin. destruct Hin as (before & after & E). pose proof (proper_at _ _ _ _ _ _ Hp E) as H.
  destruct s; cbn in H; auto; try (destruct H as [H _]; auto). destruct ks; [contradiction|]. cbn. lia.
Qed.

Lemma activate_some : forall after g, (forall s, In s after -> forall m, s <> SGroup m) ->
  fold_left activate_groups after (Some g) = Some g.
Proof.
  induction after as [|s after IH]; intros g H; [reflexivity|]. cbn [fold_left].
  replace (activate_groups (Some g) s) with (Some g).
  - apply IH. intros s' Hs'. apply H. now right.
  - specialize (H s (or_introl eq_refl)). destruct s; cbn; auto. exfalso. eapply H; eauto.
Qed.

Lemma active_groups_last : forall before names after,
  names <> [] -> (forall s, In s after -> forall m, s <> SGroup m) ->
  active_groups (before ++ SGroup names :: after) = names.
Proof.
  intros before names after Hn Ha. unfold active_groups. rewrite fold_left_app. cbn [fold_left].
  replace (activate_groups (fold_left activate_groups before None) (SGroup names)) with (Some names).
  - now rewrite activate_some.
  - destruct names as [|a names]; [contradiction|]. destruct (fold_left activate_groups before None); reflexivity.
Qed.

Lemma activate_none : forall before,
  (forall s, In s before -> is_element s = false /\ forall m, s <> SGroup m) ->
  fold_left activate_groups before None = None.
Proof.
  induction before as [|s before IH]; intros H; [reflexivity|]. cbn [fold_left].
  replace (activate_groups None s) with (@None (list bytes)).
  - apply IH. intros s' Hs'. apply H. now right.
  - destruct (H s (or_introl eq_refl)) as [He Hg]. destruct s; cbn in *; auto; try discriminate. exfalso. eapply Hg; eauto.
Qed.

Lemma active_groups_none : forall before,
  (forall s, In s before -> forall m, s <> SGroup m) -> active_groups before = [lit "default"].
Proof.
  intros before H. unfold active_groups.
  enough (K : fold_left activate_groups before None = None \/ fold_left activate_groups before None = Some [lit "default"])
    by (destruct K as [-> | ->]; reflexivity).
  induction before as [|s before IH]; [now left|]. cbn [fold_left].
  assert (Ha : activate_groups None s = None \/ activate_groups None s = Some [lit "default"]).
  { specialize (H s (or_introl eq_refl)). destruct s; cbn; auto. exfalso. eapply H; eauto. }
  assert (Hb : forall t, In t before -> forall m, t <> SGroup m) by (intros t Ht; apply H; now right).
  destruct Ha as [-> | ->]; [now apply IH|]. right. now apply activate_some.
Qed.

Lemma active_groups_bare : forall before after,
  (forall s, In s before -> is_element s = false /\ forall m, s <> SGroup m) ->
  active_groups (before ++ SGroup [] :: after) = active_groups (before ++ after).
Proof. intros before after H. unfold active_groups. rewrite !fold_left_app, activate_none by exact H. reflexivity. Qed.

Lemma activate_stays : forall ss g, exists g', fold_left activate_groups ss (Some g) = Some g'.
Proof.
  induction ss as [|s ss IH]; intros g; [eexists; reflexivity|]. cbn [fold_left].
  assert (H : exists g', activate_groups (Some g) s = Some g') by (destruct s as [| | |[|a names]| | | | |]; cbn; eauto). destruct H as [g' ->]. apply IH.
Qed.

Lemma active_groups_bare_later : forall before s middle after,
  is_element s = true \/ (exists names, names <> [] /\ s = SGroup names) ->
  (forall t, In t after -> forall m, t <> SGroup m) ->
  active_groups (before ++ s :: middle ++ SGroup [] :: after) = [].
Proof.
  intros before s middle after Hs Ha. unfold active_groups. rewrite fold_left_app. cbn [fold_left].
  assert (H : exists g, activate_groups (fold_left activate_groups before None) s = Some g).
  { destruct (fold_left activate_groups before None) as [g|]; destruct Hs as [Hs|(names & Hn & ->)];
      try (destruct names; [contradiction|]); try (destruct s; try discriminate Hs); cbn; eauto. }
  destruct H as [g ->]. rewrite fold_left_app. destruct (activate_stays middle g) as [g' ->]. cbn [fold_left].
  replace (activate_groups (Some g') (SGroup [])) with (Some (@nil bytes)) by reflexivity. now rewrite activate_some.
Qed.

Lemma drop_empty_last : forall gs front g back, drop_empty gs = front ++ g :: back -> back <> [] -> shapes g <> [].
Proof.
  induction gs as [|a gs IH]; intros front g back E Hb; [destruct front; discriminate|].
  destruct gs as [|a' gs].
  - destruct front as [|x front]; cbn in E; inversion E; subst; [contradiction|]. destruct front; discriminate.
  - assert (E0 : drop_empty (a :: a' :: gs) = match shapes a with [] => drop_empty (a' :: gs) | _ => a :: drop_empty (a' :: gs) end) by reflexivity.
    rewrite E0 in E. destruct (shapes a) eqn:Ea; [eapply IH; eauto|].
    destruct front as [|x front]; cbn [app] in E; injection E as Ex E'.
    + subst. rewrite Ea. discriminate.
    + eapply IH; eauto.
Qed.

Lemma object_empty_last : forall dbg input set ob, fits input -> parse dbg input = Ok set -> In ob (objects set) ->
  forall g gs hs, geometry_set ob = gs ++ g :: hs -> hs <> [] -> shapes g <> [].
Proof.
  intros dbg input set ob Hf Hok Hin g gs hs.
  destruct (object_cases _ _ _ _ Hf Hok Hin) as (f & i & n & ss & Hs & _ & Hi & Hn).
  rewrite (nth_is _ _ _ Hf Hok f Hs i ob n ss Hi Hn). cbn [geometry_set object_of]. apply drop_empty_last.
Qed.

Lemma parsed_library_lines : forall dbg input set ts, fits input -> parse dbg input = Ok set -> tokenizes input ts ->
  exists rest, reads_libraries ts (material_libraries set) rest.
Proof.
  intros dbg input set ts Hf Hok Ht. destruct (parsed_said _ _ _ Hf Hok) as (f & (ts' & Ht' & Hr) & _ & ->).
  apply tokenizes_iff in Ht, Ht'. subst. inversion Hr; subst; cbn [file_means file_libraries material_libraries]; eauto.
Qed.

Lemma library_line_iff : forall ts names rest, reads_line ts names rest ->
  forall libs rest', reads_libraries (lit "mtllib" :: ts) libs rest' <->
  exists libs', libs = names ++ libs' /\ reads_libraries rest libs' rest'.
Proof.
  intros ts names rest Hl libs rest'. split.
  - intros H. inversion H; subst.
    + match goal with K : reads_line ts _ _ |- _ => destruct (line_det _ _ _ _ _ Hl K) as [<- <-] end. eauto.
    + exfalso. match goal with K : _ /\ _ |- _ => destruct K as [_ K]; now apply K end.
  - intros (libs' & -> & H). eapply libraries_line; eauto.
Qed.

Lemma unknown_statement : forall input before after ts w rest done o, fits input ->
  input = before ++ after -> tokenizes before ts -> tokenizes after (w :: rest) -> tokenizes input (ts ++ w :: rest) ->
  reaches (ts ++ w :: rest) done (Some o) (w :: rest) ->
  ~ In w keywords -> w <> nl -> w <> lit "o" ->
  parse false input = Err (mkParseError (line_after before) InvalidObjectStatement (msg_statement w)).
Proof.
  intros input before after ts w rest done [n ss] Hf Ei H1 H2 H3 Hr Hk Hn Ho.
  eapply (fails_here_err input before after ts w rest done n ss (InvalidObjectStatement, msg_statement w)); eauto.
  now apply fails_unknown.
Qed.

Lemma not_float_kind : forall ts c rest, not_float ts c rest -> fst c <> InvalidObjectStatement.
Proof. intros ts c rest H. inversion H; subst; discriminate. Qed.

Lemma bad_number_kind : forall a b t c, bad_number a b t c -> fst c <> InvalidObjectStatement.
Proof. intros a b t c H. inversion H; subst; discriminate. Qed.

Lemma bad_ref_kind : forall a b t c, bad_ref a b t c -> fst c <> InvalidObjectStatement.
Proof.
  intros a b t c H. destruct H; try discriminate;
    match goal with K : bad_part _ _ _ _ |- _ => destruct K as [_ K]; apply bad_number_kind in K; exact K end.
Qed.

Lemma unknown_only : forall dbg input e, fits input -> parse dbg input = Err e -> err_kind e = InvalidObjectStatement ->
  exists before after ts w rest done o,
    input = before ++ after /\ tokenizes before ts /\ tokenizes after (w :: rest) /\ tokenizes input (ts ++ w :: rest) /\
    reaches (ts ++ w :: rest) done (Some o) (w :: rest) /\
    ~ In w keywords /\ w <> nl /\ w <> lit "o" /\
    e = mkParseError (line_after before) InvalidObjectStatement (msg_statement w).
Proof.
  intros dbg input e Hf H Hk. apply parse_debug_err in H. apply parse_err_iff in H; auto.
  destruct H as (before & after & ts & rest & c & Ei & H1 & H2 & H3 & Hfail & ->). cbn [err_kind] in Hk.
  apply fails_file_at in Hfail. destruct Hfail as (mid & [(done & n & ss & Hr & Hs)|(done & _ & Hh)]).
  - destruct Hs;
      try (match goal with K : not_float _ _ _ |- _ => apply not_float_kind in K; contradiction end);
      try discriminate Hk.
    + apply bad_number_kind in H4. contradiction.
    + apply bad_ref_kind in H4. contradiction.
    + exists before, after, ts, t, ts0, done, (n, ss). repeat split; auto.
  - destruct Hh; discriminate Hk.
Qed.

Lemma error_bounds : forall dbg input e, fits input -> parse dbg input = Err e ->
  1 <= err_line_number e <= 1 + count_occ ascii_dec input LF.
Proof.
  intros dbg input e Hf H. destruct (error_place _ _ _ Hf H) as (x & y & z & _ & _ & _ & -> & _ & _ & _ & _ & _ & -> & _).
  unfold line_after. rewrite app_assoc, (count_occ_app ascii_dec (x ++ y) z LF). lia.
Qed.

Lemma error_iff : forall input e, fits input ->
  parse false input = Err e <->
  exists x y z tx ty tz, input = x ++ y ++ z /\
    tokenizes x tx /\ tokenizes y ty /\ tokenizes z tz /\ tokenizes input (tx ++ ty ++ tz) /\
    fails_at (tx ++ ty ++ tz) (ty ++ tz) (err_kind e, err_message e) tz /\
    err_line_number e = line_after (x ++ y).
Proof.
  intros input e Hf. split.
  - intros H. destruct (error_place _ _ _ Hf H) as (x & y & z & tx & ty & tz & H1 & H2 & H3 & H4 & H5 & H6 & H7 & _).
    exists x, y, z, tx, ty, tz. auto 10.
  - intros (x & y & z & tx & ty & tz & E & Hx & Hy & Hz & Ht & Hat & Hl). apply parse_err_iff; auto.
    rewrite app_assoc in Ht.
    destruct (tokenizes_split _ _ Ht _ _ eq_refl) as (b & a & E' & Hb & Ha).
    exists b, a, (tx ++ ty), tz, (err_kind e, err_message e). repeat split; auto.
    + apply fails_file_at. exists (ty ++ tz). now rewrite <- app_assoc.
    + destruct e as [l k m]. cbn in *. subst l. f_equal. unfold line_after. f_equal.
      rewrite count_occ_app, <- (count_nl_line _ _ Hx), <- (count_nl_line _ _ Hy), <- count_nl_app.
      apply count_nl_line. exact Hb.
Qed.
