(** The texts of [{:#?}] are those of [{:?}] with line breaks. *)
From Coq Require Import Lia.
From Verif Require Import PrettyModel PrettySpec DebugProofs.
Local Open Scope char_scope.
Local Open Scope list_scope.

(** * Texts as trees *)

(** What is written on one line, or a line that ends in an opening bracket, items
    with something before them, and the closing bracket. *)
Inductive tree := Atom (t : bytes) | Node (h : bytes) (items : list (bytes * tree)) (c : byte).

Lemma tree_induction : forall P : tree -> Prop, (forall t, P (Atom t)) ->
  (forall h items c, Forall (fun it => P (snd it)) items -> P (Node h items c)) -> forall t, P t.
Proof.
  intros P HA HN. fix IH 1. intros [t|h items c]; [apply HA|]. apply HN.
  induction items as [|[p t] items IHi]; constructor; [exact (IH t)|exact IHi].
Qed.

Definition gap (c : byte) : bytes := if Ascii.eqb c "}" then [" "] else [].

Fixpoint plain (t : tree) : bytes :=
  match t with
  | Atom s => s
  | Node h items c => h ++ gap c ++ separated (map (fun it => let '(p, t) := it in p ++ plain t) items) ++ gap c ++ [c]
  end.

Fixpoint pretty (t : tree) : bytes :=
  match t with
  | Atom s => s
  | Node h items c => h ++ LF :: flat_map pretty_item (map (fun it => let '(p, t) := it in p ++ pretty t) items) ++ [c]
  end.

(** The lines, with their depth. *)
Fixpoint rows (d : nat) (pre : bytes) (t : tree) (post : bytes) : list (nat * bytes) :=
  match t with
  | Atom s => [(d, pre ++ s ++ post)]
  | Node h items c => (d, pre ++ h) :: flat_map (fun it => let '(p, t) := it in rows (S d) p t [","]) items ++ [(d, c :: post)]
  end.

Definition no_break (s : bytes) : Prop := Forall (fun c => c <> LF) s.
Definition starts_well (s : bytes) : Prop := match s with [] => False | c :: _ => c <> " " /\ closing c = false /\ c <> "," end.
Definition before_well (s : bytes) : Prop := no_break s /\ (s = [] \/ starts_well s).

Fixpoint good (t : tree) : Prop :=
  match t with
  | Atom s => no_break s /\ starts_well s /\ exists r c, s = r ++ [c] /\ opening c = false /\ c <> ","
  | Node h items c => no_break h /\ starts_well h /\ closing c = true /\ items <> [] /\
      (exists r o, h = r ++ [o] /\ opening o = true /\ Ascii.eqb o "{" = Ascii.eqb c "}") /\
      fold_right (fun it P => let '(p, t) := it in before_well p /\ good t /\ P) True items
  end.

Lemma good_items : forall items, fold_right (fun it P => let '(p, t) := it in before_well p /\ good t /\ P) True items ->
  Forall (fun it => before_well (fst it) /\ good (snd it)) items.
Proof. induction items as [|[p t] items IH]; cbn [fold_right]; constructor; cbn [fst snd]; tauto. Qed.

Lemma no_break_app : forall a b, no_break a -> no_break b -> no_break (a ++ b).
Proof. intros a b Ha Hb. apply Forall_app. auto. Qed.

Lemma closing_no_break : forall c, closing c = true -> c <> LF.
Proof. intros c H ->. discriminate H. Qed.

(** * The lines of the text *)

Definition row (r : nat * bytes) : bytes := repeat " " (4 * fst r) ++ snd r.
Definition ended (ls : list bytes) : bytes := flat_map (fun l => l ++ [LF]) ls.

Lemma row_0 : forall s, row (0, s) = s.
Proof. reflexivity. Qed.

Lemma pad_line : forall l s, no_break l -> pad_from false (l ++ s) = l ++ pad_from false s.
Proof.
  induction l as [|c l IH]; intros s H; [reflexivity|]. inversion H; subst. cbn [app pad_from].
  replace (Ascii.eqb c LF) with false by (symmetry; now apply Ascii.eqb_neq). rewrite IH by assumption. reflexivity.
Qed.

Lemma pad_ended : forall ls, Forall (fun l => no_break l /\ l <> []) ls -> pad_from true (ended ls) = ended (map (fun l => lit "    " ++ l) ls).
Proof.
  induction ls as [|l ls IH]; intros H; [reflexivity|]. inversion H as [|? ? [N E] Hr]; subst.
  unfold ended. cbn [flat_map map]. fold (ended ls). fold (ended (map (fun l => lit "    " ++ l) ls)). destruct l as [|c l]; [congruence|].
  inversion N; subst. cbn [app pad_from]. replace (Ascii.eqb c LF) with false by (symmetry; now apply Ascii.eqb_neq).
  rewrite <- !app_assoc, pad_line by assumption. cbn [app pad_from]. rewrite Ascii.eqb_refl.
  destruct (ended ls) as [|x r] eqn:E'.
  - destruct ls as [|l' ls]; [reflexivity|]. unfold ended in E'. cbn in E'. now destruct l'.
  - rewrite <- IH by assumption. reflexivity.
Qed.


Lemma rows_well : forall t, good t -> forall d pre post, before_well pre -> no_break post ->
  Forall (fun r => no_break (snd r) /\ snd r <> []) (rows d pre t post).
Proof.
  induction t as [s|h items c IH] using tree_induction; intros G d pre post [Np Hp] Npost; cbn [good rows] in *.
  - destruct G as (N & S & _). constructor; [|constructor]. cbn [snd]. split.
    + now repeat apply no_break_app.
    + destruct pre; [|discriminate]. destruct s; [destruct S|discriminate].
  - destruct G as (N & S & C & _ & _ & F). apply good_items in F. constructor; [|apply Forall_app; split].
    + cbn [snd]. split; [now apply no_break_app|]. destruct pre; [|discriminate]. destruct h; [destruct S|discriminate].
    + apply Forall_flat_map. apply Forall_forall. intros [p t] I. rewrite Forall_forall in IH, F. specialize (F _ I). cbn [fst snd] in F.
      apply (IH _ I); try tauto. constructor; [discriminate|constructor].
    + constructor; [|constructor]. cbn [snd]. split; [|discriminate]. constructor; [now apply closing_no_break|exact Npost].
Qed.

Lemma rows_deeper : forall t d pre post, rows (S d) pre t post = map (fun r => (S (fst r), snd r)) (rows d pre t post).
Proof.
  induction t as [s|h items c IH] using tree_induction; intros d pre post; cbn [rows map fst snd]; [reflexivity|].
  rewrite map_app. cbn [map fst snd]. f_equal. f_equal. clear -IH. induction items as [|[p t] items IHi]; [reflexivity|].
  inversion IH; subst. cbn [flat_map]. rewrite map_app. cbn [snd] in *. f_equal; auto.
Qed.

Lemma row_deeper : forall r, row (S (fst r), snd r) = lit "    " ++ row r.
Proof. intros [d s]. unfold row. cbn [fst snd]. replace (4 * S d) with (4 + 4 * d) by lia. rewrite repeat_app, <- app_assoc. reflexivity. Qed.

(** Lines that are well formed and end in a comma. *)
Lemma pad_rows : forall t, good t -> forall p, before_well p ->
  p ++ pretty t ++ [","; LF] = ended (map row (rows 0 p t [","])) ->
  pretty_item (p ++ pretty t) = ended (map row (rows 1 p t [","])).
Proof.
  intros t G p Hp E. unfold pretty_item. rewrite <- app_assoc, E.
  rewrite pad_ended.
  - rewrite map_map. f_equal. rewrite rows_deeper, map_map. apply map_ext. intros r. symmetry. apply row_deeper.
  - pose proof (rows_well t G 0 p [","] Hp ltac:(constructor; [discriminate|constructor])) as W. apply Forall_map. revert W. apply Forall_impl.
    intros [d s] [N S]. unfold row. cbn [fst snd] in *. split.
    + apply no_break_app; [|exact N]. apply Forall_forall. intros c I. apply repeat_spec in I. subst c. discriminate.
    + destruct s; [congruence|]. now destruct (repeat " " (4 * d)).
Qed.

Lemma ended_app : forall a b, ended (a ++ b) = ended a ++ ended b.
Proof. intros. apply flat_map_app. Qed.

Lemma pretty_rows : forall t, good t -> forall p post, before_well p ->
  p ++ pretty t ++ post ++ [LF] = ended (map row (rows 0 p t post)).
Proof.
  induction t as [s|h items c IH] using tree_induction; intros G p post Hp; cbn [pretty rows].
  - unfold ended. cbn [map flat_map]. now rewrite row_0, app_nil_r, <- !app_assoc.
  - cbn [good] in G. destruct G as (_ & _ & _ & _ & _ & F). apply good_items in F.
    cbn [map]. rewrite map_app. unfold ended. cbn [flat_map]. fold (ended (map row (flat_map (fun it => let '(p, t) := it in rows 1 p t [","]) items) ++ map row [(0, c :: post)])).
    rewrite ended_app, row_0, <- !app_assoc. cbn [app]. do 3 f_equal. rewrite <- app_assoc.
    unfold ended at 2. cbn [map flat_map app]. rewrite row_0, app_nil_r. cbn [app]. f_equal.
    clear -IH F. induction items as [|[q t] items IHi]; [reflexivity|]. inversion IH as [|? ? IH1 IH2]; subst. inversion F as [|? ? [F1 F1'] F2]; subst. cbn [fst snd] in *.
    cbn [map flat_map]. rewrite map_app, ended_app. f_equal; [|now apply IHi].
    apply pad_rows; auto. apply (IH1 F1' q [","] F1).
Qed.

Lemma lines_ended : forall ls l, Forall no_break ls -> no_break l -> lines (ended ls ++ l) = ls ++ [l].
Proof.
  assert (A : forall l r, no_break l -> lines (l ++ LF :: r) = l :: lines r).
  { induction l as [|c l IH]; intros r H; [reflexivity|]. inversion H; subst. cbn [app lines].
    replace (Ascii.eqb c LF) with false by (symmetry; now apply Ascii.eqb_neq). now rewrite IH. }
  assert (B : forall l, no_break l -> lines l = [l]).
  { induction l as [|c l IH]; intros H; [reflexivity|]. inversion H; subst. cbn [lines].
    replace (Ascii.eqb c LF) with false by (symmetry; now apply Ascii.eqb_neq). now rewrite IH. }
  induction ls as [|x ls IH]; intros l H Hl; [cbn [ended flat_map app]; now apply B|]. inversion H; subst.
  unfold ended. cbn [flat_map]. fold (ended ls). rewrite <- !app_assoc. cbn [app]. rewrite A by assumption. now rewrite IH.
Qed.

Lemma row_no_break : forall r, no_break (snd r) -> no_break (row r).
Proof.
  intros [d s] N. apply no_break_app; [|exact N]. apply Forall_forall. intros c I. apply repeat_spec in I. subst c. discriminate.
Qed.

Lemma pretty_lines : forall t, good t -> lines (pretty t) = map row (rows 0 [] t []).
Proof.
  intros t G. assert (B : before_well []) by (split; [constructor|now left]).
  pose proof (pretty_rows t G [] [] B) as E. cbn [app] in E.
  pose proof (rows_well t G 0 [] [] B ltac:(constructor)) as W.
  destruct (rows 0 [] t []) as [|r0 rs] eqn:R; [destruct t; discriminate R|].
  assert (L : r0 :: rs <> []) by discriminate. destruct (exists_last L) as (rs' & z & Ez). rewrite Ez in *. clear L Ez.
  rewrite map_app in E. cbn [map] in E. rewrite ended_app in E. unfold ended at 2 in E. cbn [flat_map] in E. rewrite app_nil_r, app_assoc in E.
  apply app_inj_tail in E. destruct E as [E _]. rewrite E. apply Forall_app in W. destruct W as [W1 W2].
  rewrite map_app. cbn [map]. apply lines_ended.
  - apply Forall_map. revert W1. apply Forall_impl. intros r [N _]. now apply row_no_break.
  - inversion W2 as [|? ? [N _]]; subst. now apply row_no_break.
Qed.

(** * Indentation *)

Definition after_well (post : bytes) : Prop := post = [] \/ post = [","].

Lemma starts_app : forall p s, before_well p -> starts_well s -> starts_well (p ++ s).
Proof. intros p s [_ [->|H]] Hs; [exact Hs|]. destruct p; [destruct H|exact H]. Qed.

Lemma starts_more : forall s r, starts_well s -> starts_well (s ++ r).
Proof. intros [|c s] r H; [destruct H|exact H]. Qed.

Lemma starts_visible : forall s, starts_well s -> (exists c t, s = c :: t /\ c <> " ") /\ starts_closing s = false.
Proof. intros [|c s] H; [destruct H|]. destruct H as (H1 & H2 & _). split; [eauto|exact H2]. Qed.

Lemma ends_app : forall a c, ends_opening (a ++ [c]) = opening c.
Proof. intros a c. unfold ends_opening. now rewrite rev_app_distr. Qed.

Lemma closing_opening : forall c, closing c = true -> opening c = false /\ c <> "," /\ c <> " ".
Proof.
  intros c H. unfold closing in H. apply orb_true_iff in H. destruct H as [H|H]; [apply orb_true_iff in H; destruct H as [H|H]|];
    apply Ascii.eqb_eq in H; subst c; repeat split; discriminate.
Qed.

Lemma rows_stepped : forall t, good t -> forall d pre post R, before_well pre -> after_well post ->
  stepped d R -> stepped d (map row (rows d pre t post) ++ R).
Proof.
  induction t as [s|h items c IH] using tree_induction; intros G d pre post R Hp Hpost HR; cbn [good rows] in *.
  - destruct G as (_ & S & r & c & E & O & _). cbn [map app stepped]. exists d, (pre ++ s ++ post).
    destruct (starts_visible (pre ++ s ++ post)) as [V C]; [apply starts_app; auto; now apply starts_more|].
    split; [reflexivity|]. split; [exact V|]. rewrite C. split; [reflexivity|].
    replace (ends_opening (pre ++ s ++ post)) with false; [exact HR|]. symmetry. destruct Hpost as [->| ->].
    + now rewrite app_nil_r, E, app_assoc, ends_app.
    + rewrite !app_assoc, ends_app. reflexivity.
  - destruct G as (_ & S & C & _ & (r & o & E & O & _) & F). apply good_items in F.
    cbn [map app stepped]. exists d, (pre ++ h).
    destruct (starts_visible (pre ++ h)) as [V C']; [now apply starts_app|].
    split; [reflexivity|]. split; [exact V|]. rewrite C'. split; [reflexivity|].
    replace (ends_opening (pre ++ h)) with true by (now rewrite E, app_assoc, ends_app).
    rewrite map_app, <- app_assoc.
    assert (L : stepped (Datatypes.S d) (map row [(d, c :: post)] ++ R)).
    { cbn [map app stepped]. exists d, (c :: post). destruct (closing_opening c C) as (Oc & _ & Bc).
      split; [reflexivity|]. split; [eauto|]. cbn [starts_closing]. rewrite C. split; [reflexivity|].
      replace (ends_opening (c :: post)) with false; [exact HR|]. symmetry. destruct Hpost as [->| ->]; [exact Oc|reflexivity]. }
    revert L. generalize (map row [(d, c :: post)] ++ R). clear -IH F. intros R L.
    induction items as [|[q t] items IHi]; [exact L|]. inversion IH as [|? ? IH1 IH2]; subst. inversion F as [|? ? [F1 F1'] F2]; subst. cbn [fst snd] in *.
    cbn [flat_map]. rewrite map_app, <- app_assoc. apply IH1; auto. now right.
Qed.

Theorem pretty_stepped : forall t, good t -> stepped 0 (lines (pretty t)).
Proof.
  intros t G. rewrite pretty_lines by exact G. rewrite <- (app_nil_r (map row _)). apply rows_stepped; auto.
  - split; [constructor|now left].
  - now left.
  - reflexivity.
Qed.

(** * Without line breaks *)

Lemma unindent_row : forall r c t, snd r = c :: t -> c <> " " -> unindent (row r) = snd r.
Proof.
  intros [d s] c t E N. unfold row. cbn [fst snd] in *. generalize (4 * d). induction n as [|n IH].
  - cbn [repeat app]. subst s. cbn [unindent]. now replace (Ascii.eqb c " ") with false by (symmetry; now apply Ascii.eqb_neq).
  - cbn [repeat app unindent]. exact IH.
Qed.

Lemma rows_unindent : forall t, good t -> forall d pre post, before_well pre ->
  map unindent (map row (rows d pre t post)) = map snd (rows d pre t post).
Proof.
  assert (A : forall rs, Forall (fun r => exists c t, snd r = c :: t /\ c <> " ") rs -> map unindent (map row rs) = map snd rs).
  { intros rs H. rewrite map_map. apply map_ext_in. intros r I. rewrite Forall_forall in H. destruct (H r I) as (c & t & E & N).
    now apply (unindent_row r c t). }
  intros t G d pre post Hp. apply A. revert G d pre post Hp.
  induction t as [s|h items c IH] using tree_induction; intros G d pre post Hp; cbn [good rows] in *.
  - destruct G as (_ & S & _). constructor; [|constructor]. cbn [snd]. apply starts_visible. apply starts_app; auto. now apply starts_more.
  - destruct G as (_ & S & C & _ & _ & F). apply good_items in F. constructor; [|apply Forall_app; split].
    + cbn [snd]. apply starts_visible. now apply starts_app.
    + apply Forall_flat_map. apply Forall_forall. intros [p t] I. rewrite Forall_forall in IH, F. specialize (F _ I). cbn [fst snd] in F.
      apply (IH _ I); tauto.
    + constructor; [|constructor]. cbn [snd]. exists c, post. split; [reflexivity|]. apply (closing_opening c C).
Qed.

Lemma joined_cons : forall l b k, joined (l :: b :: k) = joint l b ++ joined (b :: k).
Proof. reflexivity. Qed.

(** What stands between an item and the next line. *)
Definition between_text (c : byte) : bytes := if closing c then gap c else lit ", ".

Lemma joint_comma : forall l c b, joint (l ++ [","]) (c :: b) = l ++ between_text c.
Proof.
  intros l c b. unfold joint, between_text, without_comma, gap. rewrite rev_app_distr. cbn [rev app]. destruct (closing c).
  - change (Ascii.eqb "," ",") with true. cbv iota. now rewrite rev_involutive.
  - cbn. now rewrite <- app_assoc.
Qed.

Lemma rows_first : forall t d pre post, good t -> before_well pre -> exists c l rs, map snd (rows d pre t post) = (c :: l) :: rs /\ closing c = false.
Proof.
  intros [s|h items c] d pre post G Hp; cbn [good rows map snd] in *.
  - destruct G as (_ & S & _). assert (W : starts_well (pre ++ s ++ post)) by (apply starts_app; auto; now apply starts_more).
    destruct (pre ++ s ++ post) as [|x l]; [destruct W|]. exists x, l, []. split; [reflexivity|apply W].
  - destruct G as (_ & S & _). assert (W : starts_well (pre ++ h)) by now apply starts_app.
    destruct (pre ++ h) as [|x l]; [destruct W|]. eexists x, l, _. split; [reflexivity|apply W].
Qed.

Definition joins (t : tree) : Prop := forall d pre c b k, before_well pre ->
  joined (map snd (rows d pre t [","]) ++ (c :: b) :: k) = pre ++ plain t ++ between_text c ++ joined ((c :: b) :: k).

Lemma joined_items : forall items, Forall (fun it => joins (snd it)) items -> Forall (fun it => before_well (fst it) /\ good (snd it)) items ->
  items <> [] -> forall d c b k, closing c = true ->
  joined (map snd (flat_map (fun it => let '(p, t) := it in rows d p t [","]) items) ++ (c :: b) :: k) =
  separated (map (fun it => let '(p, t) := it in p ++ plain t) items) ++ gap c ++ joined ((c :: b) :: k).
Proof.
  induction items as [|[p t] items IH]; intros J F N d c b k C; [congruence|]. clear N.
  inversion J as [|? ? J1 J2]; subst. inversion F as [|? ? [F1 F1'] F2]; subst. cbn [fst snd] in *.
  cbn [flat_map map]. rewrite map_app, <- app_assoc, separated_cons.
  destruct items as [|[q u] items].
  - cbn [flat_map map app]. rewrite J1 by exact F1. unfold between_text. rewrite C. rewrite <- !app_assoc. reflexivity.
  - inversion F2 as [|? ? [F3 F3'] F4]; subst. cbn [fst snd] in *.
    pose proof (IH J2 F2 ltac:(discriminate) d c b k C) as I.
    cbn [flat_map] in I |- *. rewrite map_app, <- app_assoc in I |- *.
    destruct (rows_first u d q [","] F3' F3) as (x & l & rs & E & Cx). rewrite E in I |- *. cbn [app] in I |- *.
    rewrite J1 by exact F1.
    eapply eq_trans; [exact (f_equal (fun z => p ++ plain t ++ between_text x ++ z) I)|].
    unfold between_text. rewrite Cx. rewrite <- !app_assoc. reflexivity.
Qed.

(** The line that opens a bracket. *)
Lemma joint_open : forall pre r o c x l, opening o = true -> Ascii.eqb o "{" = Ascii.eqb c "}" -> closing x = false ->
  joint (pre ++ r ++ [o]) (x :: l) = pre ++ (r ++ [o]) ++ gap c.
Proof.
  intros pre r o c x l O E C. unfold joint, gap. rewrite C, !rev_app_distr. cbn [rev app]. rewrite <- E, <- !app_assoc.
  replace (Ascii.eqb o ",") with false; [reflexivity|]. symmetry. apply Ascii.eqb_neq. intros ->. discriminate O.
Qed.

Lemma joined_node : forall h items c, good (Node h items c) -> Forall (fun it => joins (snd it)) items -> forall d pre post k,
  joined (map snd (rows d pre (Node h items c) post) ++ k) =
  pre ++ h ++ gap c ++ separated (map (fun it => let '(p, t) := it in p ++ plain t) items) ++ gap c ++ joined ((c :: post) :: k).
Proof.
  intros h items c G J d pre post k. cbn [good] in G. destruct G as (_ & _ & C & N & (r & o & E & O & B) & F). apply good_items in F.
  cbn [rows map snd]. rewrite map_app. cbn [map snd app]. rewrite <- app_assoc. cbn [app].
  pose proof (joined_items items J F N (S d) c post k C) as I.
  destruct items as [|[q u] items]; [congruence|]. inversion F as [|? ? [F1 F1'] F2]; subst. cbn [fst snd] in *.
  cbn [flat_map] in I |- *. rewrite map_app, <- app_assoc in I |- *.
  destruct (rows_first u (S d) q [","] F1' F1) as (x & l & rs & Eu & Cx). rewrite Eu in I |- *. cbn [app] in I |- *.
  rewrite joined_cons. eapply eq_trans; [exact (f_equal2 (@app byte) (joint_open pre r o c x l O B Cx) I)|].
  rewrite <- !app_assoc. reflexivity.
Qed.

Lemma joins_all : forall t, good t -> joins t.
Proof.
  induction t as [s|h items c IH] using tree_induction; intros G d pre c' b k Hp.
  - cbn [rows map snd plain app]. rewrite joined_cons. rewrite app_assoc, joint_comma, <- !app_assoc. reflexivity.
  - assert (J : Forall (fun it => joins (snd it)) items).
    { cbn [good] in G. destruct G as (_ & _ & _ & _ & _ & F). apply good_items in F. apply Forall_forall. intros it I.
      rewrite Forall_forall in IH, F. apply (IH it I). now apply F. }
    rewrite (joined_node h items c G J). cbn [plain]. rewrite joined_cons. change (c :: [","]) with ([c] ++ [","]). rewrite joint_comma, <- !app_assoc.
    reflexivity.
Qed.

Theorem pretty_unbroken : forall t, good t -> unbroken (pretty t) = plain t.
Proof.
  intros t G. assert (B : before_well []) by (split; [constructor|now left]). unfold unbroken.
  rewrite pretty_lines by exact G. rewrite rows_unindent by assumption. destruct t as [s|h items c].
  - cbn [rows map snd plain joined app]. apply app_nil_r.
  - rewrite <- (app_nil_r (map snd _)). rewrite joined_node.
    + reflexivity.
    + exact G.
    + cbn [good] in G. destruct G as (_ & _ & _ & _ & _ & F). apply good_items in F. revert F. apply Forall_impl. intros it [_ H]. now apply joins_all.
Qed.

(** * All line breaks *)

(** Outside literals; no line break is due in [s], nor behind it because of it, and
    there is none too many before it. *)
Definition holds (s : bytes) : Prop :=
  (forall r, whole false (s ++ r) = whole false r) /\ (forall r, starts_closing r = false -> kept false (s ++ r) = kept false r).

Fixpoint fine (t : tree) : Prop :=
  match t with
  | Atom s => holds s
  | Node h items c => (exists r o, h = r ++ [o] /\ holds r /\ opening o = true) /\
      fold_right (fun it P => let '(p, t) := it in holds p /\ fine t /\ P) True items
  end.

Lemma fine_items : forall items, fold_right (fun it P => let '(p, t) := it in holds p /\ fine t /\ P) True items ->
  Forall (fun it => holds (fst it) /\ fine (snd it)) items.
Proof. induction items as [|[p t] items IH]; cbn [fold_right]; constructor; cbn [fst snd]; tauto. Qed.

Lemma holds_nothing : holds [].
Proof. split; reflexivity. Qed.

Lemma open_app : forall a b, starts_closing a = false -> starts_closing b = false -> starts_closing (a ++ b) = false.
Proof. intros [|c a] b Ha Hb; [exact Hb|exact Ha]. Qed.

Lemma holds_app : forall a b, starts_closing b = false -> holds a -> holds b -> holds (a ++ b).
Proof.
  intros a b S [Ha Ka] [Hb Kb]. split; intros r; [now rewrite <- app_assoc, Ha, Hb|]. intros Sr. rewrite <- app_assoc, Ka by now apply open_app.
  now apply Kb.
Qed.

Lemma holds_byte : forall c, c <> "034" -> c <> "," -> opening c = false -> holds [c].
Proof.
  intros c Q K O. apply Ascii.eqb_neq in Q, K. split; intros r; cbn [app whole kept]; rewrite O, Q; [|intros ->; reflexivity].
  rewrite K. destruct r; reflexivity.
Qed.

Lemma holds_all : forall s, Forall (fun c => c <> "034" /\ c <> "," /\ opening c = false /\ closing c = false) s -> holds s.
Proof.
  induction 1 as [|c s (Q & K & O & _) H IH]; [apply holds_nothing|]. change (c :: s) with ([c] ++ s). apply holds_app; [|now apply holds_byte|exact IH].
  inversion H as [|? ? (_ & _ & _ & C)]; [reflexivity|exact C].
Qed.

Lemma closing_holds : forall c, closing c = true -> holds [c].
Proof.
  intros c C. destruct (closing_opening c C) as (O & K & _). apply holds_byte; auto. intros ->. discriminate C.
Qed.

Lemma rows_whole : forall t, good t -> fine t -> forall d pre post, holds pre -> after_well post ->
  Forall (fun r => whole false (row r) = true) (rows d pre t post).
Proof.
  assert (B : forall d s, whole false (row (d, s)) = whole false s).
  { intros d s. unfold row. cbn [fst snd]. apply holds_all. apply Forall_forall. intros c I. apply repeat_spec in I. subst c. repeat split; discriminate. }
  induction t as [s|h items c IH] using tree_induction; intros G F d pre post Hp Hpost; cbn [good fine rows] in *.
  - constructor; [|constructor]. rewrite B, (proj1 Hp), (proj1 F). destruct Hpost as [->| ->]; reflexivity.
  - destruct F as ((r & o & E & Hr & O) & F). apply fine_items in F. destruct G as (_ & _ & C & _ & _ & G). apply good_items in G.
    constructor; [|apply Forall_app; split].
    + rewrite B, (proj1 Hp), E, (proj1 Hr). cbn [whole]. destruct (Ascii.eqb o "034"); reflexivity.
    + apply Forall_flat_map. apply Forall_forall. intros [p t] I. rewrite Forall_forall in IH, F, G. specialize (F _ I). specialize (G _ I).
      cbn [fst snd] in *. apply (IH _ I); try tauto. now right.
    + constructor; [|constructor]. rewrite B. change (c :: post) with ([c] ++ post). rewrite (proj1 (closing_holds c C)).
      destruct Hpost as [->| ->]; reflexivity.
Qed.

Lemma ends_item_app : forall a c, ends_item (a ++ [c]) = opening c || Ascii.eqb c ",".
Proof. intros a c. unfold ends_item. now rewrite rev_app_distr. Qed.

Lemma row_app : forall d s c, row (d, s ++ [c]) = row (d, s) ++ [c].
Proof. intros. unfold row. cbn [fst snd]. apply app_assoc. Qed.

Lemma rows_ends : forall t, good t -> forall d pre, Forall (fun r => ends_item (row r) = true) (rows d pre t [","]).
Proof.
  induction t as [s|h items c IH] using tree_induction; intros G d pre; cbn [good rows] in *.
  - constructor; [|constructor]. now rewrite app_assoc, row_app, ends_item_app.
  - destruct G as (_ & _ & _ & _ & (r & o & E & O & _) & F). apply good_items in F. constructor; [|apply Forall_app; split].
    + now rewrite E, app_assoc, row_app, ends_item_app, O.
    + apply Forall_flat_map. apply Forall_forall. intros [p t] I. rewrite Forall_forall in IH, F. apply (IH _ I). now apply (F _ I).
    + constructor; [|constructor]. change (c :: [","]) with ([c] ++ [","]). now rewrite row_app, ends_item_app.
Qed.

Theorem pretty_broken : forall t, good t -> fine t -> broken (pretty t).
Proof.
  intros t G F. unfold broken. rewrite pretty_lines by exact G. split.
  - apply Forall_map. apply rows_whole; auto; [apply holds_nothing|now left].
  - destruct t as [s|h items c]; [constructor|]. cbn [rows]. cbn [good] in G. destruct G as (_ & _ & _ & _ & (r & o & E & O & _) & G). apply good_items in G.
    rewrite app_comm_cons, map_app. cbn [map]. rewrite removelast_last. apply (Forall_map row (fun l => ends_item l = true) (_ :: _)). constructor.
    + now rewrite E, app_assoc, row_app, ends_item_app, O.
    + apply Forall_flat_map. apply Forall_forall. intros [p t] I. rewrite Forall_forall in G. apply rows_ends. now apply (G _ I).
Qed.

(** * No other line breaks *)

Lemma starts_item_well : forall s, starts_well s -> starts_item s = true /\ starts_closing s = false.
Proof. intros [|c s] H; [destruct H|]. destruct H as (_ & C & K). split; [|exact C]. cbn. apply Ascii.eqb_neq in K. now rewrite K. Qed.

Lemma opening_closing : forall c, opening c = true -> closing c = false /\ c <> "034".
Proof.
  intros c H. unfold opening in H. apply orb_true_iff in H. destruct H as [H|H]; [apply orb_true_iff in H; destruct H as [H|H]|];
    apply Ascii.eqb_eq in H; subst c; split; try reflexivity; discriminate.
Qed.

Lemma rows_kept : forall t, good t -> fine t -> forall d pre post, before_well pre -> holds pre -> after_well post ->
  Forall (fun r => kept false (snd r) = true /\ starts_item (snd r) = true) (rows d pre t post).
Proof.
  assert (A : forall post, after_well post -> kept false post = true /\ starts_closing post = false) by (intros post [->| ->]; split; reflexivity).
  induction t as [s|h items c IH] using tree_induction; intros G F d pre post Bp Hp Hpost; cbn [good fine rows] in *; destruct (A post Hpost) as [A1 A2].
  - destruct G as (_ & S & _). constructor; [|constructor]. cbn [snd]. pose proof (starts_item_well s S) as [_ Cs]. split.
    + rewrite (proj2 Hp) by now apply open_app. now rewrite (proj2 F).
    + apply starts_item_well. apply starts_app; [exact Bp|]. now apply starts_more.
  - destruct F as ((r & o & E & Hr & O) & F). apply fine_items in F. destruct G as (_ & S & C & _ & _ & G). apply good_items in G.
    destruct (opening_closing o O) as [Co Q]. apply Ascii.eqb_neq in Q.
    constructor; [|apply Forall_app; split].
    + cbn [snd]. split; [|apply starts_item_well; now apply starts_app]. rewrite (proj2 Hp) by now apply starts_item_well.
      rewrite E, (proj2 Hr) by exact Co. cbn [kept starts_closing negb]. now rewrite Q, orb_true_r.
    + apply Forall_flat_map. apply Forall_forall. intros [p t] I. rewrite Forall_forall in IH, F, G. specialize (F _ I). specialize (G _ I).
      cbn [fst snd] in *. apply (IH _ I); try tauto. now right.
    + constructor; [|constructor]. cbn [snd]. destruct (closing_opening c C) as (_ & K & _). apply Ascii.eqb_neq in K. split; [|cbn; now rewrite K].
      change (c :: post) with ([c] ++ post). now rewrite (proj2 (closing_holds c C)).
Qed.

Lemma rows_filled : forall t, good t -> forall d pre post R, before_well pre -> after_well post -> filled R -> filled (map snd (rows d pre t post) ++ R).
Proof.
  assert (A : forall l R, ends_opening l = false -> filled R -> filled (l :: R)).
  { intros l R E H. cbn [filled]. split; [destruct R; [exact I|congruence]|exact H]. }
  induction t as [s|h items c IH] using tree_induction; intros G d pre post R Hp Hpost HR; cbn [good rows] in *.
  - destruct G as (_ & S & r & c & E & O & _). cbn [map snd app]. apply A; [|exact HR]. destruct Hpost as [->| ->].
    + now rewrite app_nil_r, E, app_assoc, ends_app.
    + rewrite !app_assoc, ends_app. reflexivity.
  - destruct G as (_ & S & C & N & _ & F). apply good_items in F. cbn [map snd app]. rewrite map_app, <- app_assoc. cbn [map snd app].
    assert (L : filled ((c :: post) :: R)).
    { apply A; [|exact HR]. destruct (closing_opening c C) as (Oc & _). destruct Hpost as [->| ->]; [exact Oc|reflexivity]. }
    cbn [filled]. split.
    + destruct items as [|[q u] items]; [congruence|]. inversion F as [|? ? [F1 F1'] F2]; subst. cbn [fst snd] in *. cbn [flat_map]. rewrite map_app, <- app_assoc.
      destruct (rows_first u (Datatypes.S d) q [","] F1' F1) as (x & l & rs & -> & Cx). intros _. exact Cx.
    + clear -IH F L. induction items as [|[q t] items IHi]; [exact L|]. inversion IH as [|? ? IH1 IH2]; subst. inversion F as [|? ? [F1 F1'] F2]; subst. cbn [fst snd] in *.
      cbn [flat_map]. rewrite map_app, <- app_assoc. apply IH1; auto. now right.
Qed.

Theorem pretty_sparing : forall t, good t -> fine t -> sparing (pretty t).
Proof.
  intros t G F. assert (B : before_well []) by (split; [constructor|now left]). unfold sparing. rewrite pretty_lines, rows_unindent by assumption. split.
  - apply Forall_map. apply rows_kept; auto; [apply holds_nothing|now left].
  - rewrite <- (app_nil_r (map snd _)). apply rows_filled; auto; [now left|exact I].
Qed.
