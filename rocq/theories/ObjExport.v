(** Every possible object set is the meaning of what [write_set] writes. *)
From Verif Require Import ObjImageSpec ObjState ObjMeaning ObjFacts ObjMore DisplayProofs.
From Coq Require Import Sorting.Sorted.
Local Open Scope list_scope.

(** * Slices *)

Lemma firstn_slice : forall A (l : list A) a b, a <= b -> firstn a l ++ slice l a b = firstn b l.
Proof.
  intros A l a b H. unfold slice. revert l b H. induction a as [|a IH]; intros l b H.
  - cbn [firstn skipn app]. now rewrite Nat.sub_0_r.
  - destruct l as [|x l]; [now rewrite !firstn_nil|]. destruct b as [|b]; [lia|]. cbn [firstn skipn app Nat.sub].
    rewrite IH by lia. reflexivity.
Qed.

Lemma slice_length : forall A (l : list A) a b, b <= length l -> length (slice l a b) = b - a.
Proof. intros A l a b H. unfold slice. rewrite firstn_length, skipn_length. lia. Qed.

Lemma slice_in : forall A (l : list A) a b x, In x (slice l a b) -> In x l.
Proof.
  intros A l a b x H. unfold slice in H.
  assert (K : In x (skipn a l)) by (rewrite <- (firstn_skipn (b - a) (skipn a l)); apply in_app_iff; now left).
  rewrite <- (firstn_skipn a l). apply in_app_iff. now right.
Qed.

(** * Groups and smoothing groups after more statements *)

Definition silent (s : statement) : Prop :=
  match s with SGroup _ | SSmooth _ => True | _ => False end.

Lemma some_groups_all : forall before l, all_groups (before ++ some_groups l) = all_groups before ++ l.
Proof.
  intros before [|n l]; cbn [some_groups]; [now rewrite !app_nil_r|]. rewrite all_groups_snoc. reflexivity.
Qed.

Lemma some_groups_smoothing : forall before l, all_smoothing_groups (before ++ some_groups l) = all_smoothing_groups before.
Proof.
  intros before [|n l]; cbn [some_groups]; [now rewrite !app_nil_r|]. rewrite all_smoothing_groups_snoc. cbn. apply app_nil_r.
Qed.

Lemma smooths_all : forall l before,
  all_smoothing_groups (before ++ map SSmooth l) = all_smoothing_groups before ++ l /\
  all_groups (before ++ map SSmooth l) = all_groups before /\ groups_at (before ++ map SSmooth l) = groups_at before.
Proof.
  induction l as [|n l IH]; intros before; cbn [map]; [now rewrite !app_nil_r|].
  change (SSmooth n :: map SSmooth l) with ([SSmooth n] ++ map SSmooth l). rewrite app_assoc.
  destruct (IH (before ++ [SSmooth n])) as (H1 & H2 & H3). rewrite H1, H2, H3.
  rewrite all_smoothing_groups_snoc, all_groups_snoc, groups_at_snoc. cbn. rewrite app_nil_r, <- app_assoc. auto.
Qed.

(** * Items *)

Definition item_elements (items : list item) : list element :=
  flat_map (fun it => match it with IElement _ _ e => [e] | IUse _ => [] end) items.
Definition item_marks (items : list item) : list (list nat * nat) :=
  flat_map (fun it => match it with IElement g k _ => [(g, k)] | IUse _ => [] end) items.

Fixpoint mark_entries (i : nat) (l : list (list nat * nat)) : list shape_entry :=
  match l with
  | [] => []
  | (g, k) :: l' => mkShapeEntry i g k :: mark_entries (S i) l'
  end.

Fixpoint item_segments (m : option bytes) (i n : nat) (items : list item) : list geometry :=
  match items with
  | [] => [mkGeometry m (seq i n)]
  | IUse m' :: items' => mkGeometry m (seq i n) :: item_segments (Some m') (i + n) 0 items'
  | IElement _ _ _ :: items' => item_segments m i (n + 1) items'
  end.

Fixpoint smoothing_from (n used : nat) (ks : list nat) : Prop :=
  match ks with
  | [] => True
  | k :: ks' => used <= S k /\ k < n /\ smoothing_from n (S k) ks'
  end.

Section Export.
  Variables (base : counts) (names : list bytes) (numbers : list N).

  Record marked (before : list statement) (used : nat) (active : option (list nat)) (sused : nat) : Prop := {
    mk_groups : all_groups before = firstn used names;
    mk_used : used <= length names;
    mk_active : forall g, active = Some g -> groups_at before = g /\ 0 < used;
    mk_smoothing : all_smoothing_groups before = firstn sused numbers;
    mk_sused : sused <= length numbers
  }.

  Lemma silent_segments : forall pre ss m i n, Forall silent pre -> segments m base (pre ++ ss) i n = segments m base ss i n.
  Proof.
    intros pre ss m i n H. induction H as [|s pre Hs H IH]; [reflexivity|].
    destruct s; try destruct Hs; cbn [app segments elements_of length]; now rewrite Nat.add_0_r.
  Qed.

  Lemma silent_shapes : forall pre ss before i, Forall silent pre -> shapes_from before base (pre ++ ss) i = shapes_from (before ++ pre) base ss i.
  Proof.
    intros pre ss before i H. revert before. induction H as [|s pre Hs H IH]; intros before; [now rewrite app_nil_r|].
    destruct s; try destruct Hs; cbn [app shapes_from elements_of length seq map]; rewrite Nat.add_0_r, IH, <- app_assoc; reflexivity.
  Qed.

  Lemma silent_elements : forall pre, Forall silent pre -> all_elements base pre = [].
  Proof. intros pre H. unfold all_elements. apply flat_map_none. intros s Hs. rewrite Forall_forall in H. apply H in Hs. now destruct s. Qed.

  Lemma some_groups_silent : forall l, Forall silent (some_groups l).
  Proof. intros [|n l]; repeat constructor. Qed.

  Lemma smooths_silent : forall l, Forall silent (map SSmooth l).
  Proof. intros l. apply Forall_forall. intros s Hs. apply in_map_iff in Hs. now destruct Hs as (n & <- & _). Qed.

  (** ** Changing groups *)

  Lemma firstn_nonempty : forall used, 0 < used -> used <= length names -> firstn used names <> [].
  Proof. intros [|u] H1 H2; [lia|]. destruct names; [cbn in H2; lia|discriminate]. Qed.

  Lemma switch_ok : forall before used active sused g gs, marked before used active sused ->
    groups_from (length names) used active (g :: gs) ->
    forall pre used', switch_groups names used active g = (pre, used') ->
    Forall silent pre /\ (forall l, In (SGroup l) pre -> incl l names) /\
    marked (before ++ pre) used' (Some g) sused /\ groups_from (length names) used' (Some g) gs.
  Proof.
    intros before used active sused g gs [M1 M2 M3 M4 M5] Hg pre used' E. unfold switch_groups in E.
    destruct (same_groups active g) eqn:Es.
    - apply pair_equal_spec in E; destruct E as [<- <-]. unfold same_groups in Es. destruct active as [a|]; [|discriminate].
      destruct (list_eq_dec Nat.eq_dec a g) as [->|]; [|discriminate]. destruct (M3 _ eq_refl) as [G1 G2].
      rewrite app_nil_r. repeat split; auto; try (intros l []); try congruence.
      inversion Hg as [|u a gs' H|u a f k gs' Hf Hk Hn H|u a gs' Hn H]; subst; auto.
      + exfalso. destruct (groups_inv before) as (_ & _ & I3). destruct I3 as [_ I3]; [rewrite M1; apply firstn_nonempty; auto|].
        assert (K : In f (groups_at before)). { match goal with E : seq f k = _ |- _ => rewrite <- E end. apply in_seq. lia. }
        apply I3 in K. rewrite M1, firstn_length in K. lia.
      + now rewrite Nat.max_r in H by lia.
    - destruct g as [|f0 g0].
      + apply pair_equal_spec in E; destruct E as [<- <-].
        assert (K : 0 < length names /\ groups_from (length names) (Nat.max 1 used) (Some []) gs).
        { inversion Hg as [|u a gs' H|u a f k gs' Hf Hk Hn H|u a gs' Hn H]; subst; auto.
          - cbn in Es. destruct (list_eq_dec Nat.eq_dec [] []); congruence.
          - destruct k; [lia|discriminate]. }
        destruct K as [K1 K2].
        assert (Hall : all_groups (before ++ some_groups (slice names used (Nat.max 1 used))) = firstn (Nat.max 1 used) names).
        { rewrite some_groups_all, M1. apply firstn_slice. lia. }
        split; [apply Forall_app; split; [apply some_groups_silent|repeat constructor]|]. split.
        { intros l Hl. apply in_app_iff in Hl. destruct Hl as [Hl|[Hl|[]]]; [|injection Hl as <-; intros x []].
          unfold some_groups in Hl. destruct (slice _ _ _) eqn:Esl; [destruct Hl|]. destruct Hl as [Hl|[]]. injection Hl as <-.
          rewrite <- Esl. intros x. apply slice_in. }
        split; [|exact K2]. rewrite app_assoc. split.
        * rewrite all_groups_snoc. cbn [is_element names_of]. now rewrite app_nil_r.
        * lia.
        * intros g E. injection E as <-. split; [|lia]. rewrite groups_at_snoc, Hall.
          pose proof (firstn_nonempty (Nat.max 1 used)) as Hne. destruct (firstn (Nat.max 1 used) names); [exfalso; apply Hne; auto; lia|reflexivity].
        * rewrite all_smoothing_groups_snoc, some_groups_smoothing. cbn [is_element smoothing_of]. now rewrite app_nil_r.
        * exact M5.
      + apply pair_equal_spec in E; destruct E as [<- <-].
        assert (K : exists k, f0 :: g0 = seq f0 k /\ 0 < k /\ used <= f0 /\ f0 + k <= length names /\
           groups_from (length names) (f0 + k) (Some (seq f0 k)) gs).
        { inversion Hg as [|u a gs' H|u a f k gs' Hf Hk Hn H|u a gs' Hn H]; subst.
          - unfold same_groups in Es. destruct (list_eq_dec Nat.eq_dec (f0 :: g0) (f0 :: g0)); congruence.
          - match goal with E : seq f k = _ |- _ => rename E into Eq end.
            assert (f = f0) as -> by (destruct k; [lia|cbn in Eq; congruence]). exists k. rewrite Eq in *. repeat split; auto. }
        destruct K as (k & Ek & Hk & Hu & Hn & K).
        assert (El : length (f0 :: g0) = k) by (rewrite Ek; apply seq_length).
        assert (Hall : all_groups (before ++ some_groups (slice names used f0)) = firstn f0 names).
        { rewrite some_groups_all, M1. apply firstn_slice. lia. }
        split; [apply Forall_app; split; [apply some_groups_silent|repeat constructor]|]. split.
        { intros l Hl. apply in_app_iff in Hl. destruct Hl as [Hl|[Hl|[]]]; [|injection Hl as <-; intros x; apply slice_in].
          unfold some_groups in Hl. destruct (slice names used f0) eqn:Esl; [destruct Hl|]. destruct Hl as [Hl|[]]. injection Hl as <-.
          rewrite <- Esl. intros x. apply slice_in. }
        change (f0 + length (f0 :: g0)) with (f0 + length (f0 :: g0)). rewrite El.
        split; [|rewrite Ek; exact K]. rewrite app_assoc. split.
        * rewrite all_groups_snoc, Hall. cbn [is_element names_of]. apply firstn_slice. lia.
        * exact Hn.
        * intros g E. injection E as <-. split; [|lia]. rewrite groups_at_snoc, Hall.
          assert (Es1 : length (slice names f0 (f0 + k)) = k) by (rewrite slice_length by lia; lia).
          assert (Ef : length (firstn f0 names) = f0) by (rewrite firstn_length; lia).
          rewrite Ek. destruct (firstn f0 names); [destruct (slice names f0 (f0 + k)); [cbn in Es1; lia|]|]; rewrite Es1, Ef; reflexivity.
        * rewrite all_smoothing_groups_snoc, some_groups_smoothing. cbn [is_element smoothing_of]. now rewrite app_nil_r.
        * exact M5.
  Qed.

  (** ** Elements *)

  Definition simple (e : element) : Prop := forall a, e = Point a -> exists k, a = V k.

  Lemma global_local : forall i, local_ref base (global_ref base i) = i.
  Proof. intros []; unfold local_ref, local_index; cbn; repeat f_equal; lia. Qed.

  Lemma element_line_elements : forall e, simple e -> elements_of base (element_line base e) = [e].
  Proof.
    intros [a|a b|a b c] H.
    - destruct (H a eq_refl) as (k & ->). cbn. unfold local_index. repeat f_equal. lia.
    - cbn [element_line elements_of map pairs combine tl]. now rewrite !global_local.
    - cbn [element_line elements_of map pairs combine tl]. now rewrite !global_local.
  Qed.

  Lemma element_line_is : forall e, is_element (element_line base e) = true.
  Proof. now intros []. Qed.

  (** ** Everything *)

  (** Where the statements come from. *)
  Definition exported (items : list item) (s : statement) : Prop :=
    match s with
    | SGroup l => incl l names
    | SSmooth n => In n numbers
    | SUse m => In (IUse m) items
    | SVertex _ | STexture _ | SNormal _ => False
    | _ => exists e, In e (item_elements items) /\ s = element_line base e
    end.

  Lemma exported_more : forall it items s, exported items s -> exported (it :: items) s.
  Proof.
    intros it items [v|v|v|l|n|m|ks|rs|rs] H; cbn in *; auto; destruct H as (e & He & E); exists e; (split; [|exact E]);
      destruct it; cbn; auto; try (right; exact He).
  Qed.

  Lemma silent_exported : forall items pre, Forall silent pre -> (forall l, In (SGroup l) pre -> incl l names) ->
    (forall n, In (SSmooth n) pre -> In n numbers) -> Forall (exported items) pre.
  Proof.
    intros items pre H H1 H2. apply Forall_forall. intros s Hs. rewrite Forall_forall in H. specialize (H _ Hs).
    destruct s; try destruct H; cbn; auto.
  Qed.

  Lemma switch_no_smooth : forall used active g pre used' n, switch_groups names used active g = (pre, used') -> ~ In (SSmooth n) pre.
  Proof.
    intros used active g pre used' n E K. unfold switch_groups, some_groups in E.
    destruct (same_groups _ _); [injection E as <- <-; destruct K|].
    destruct g as [|f g]; injection E as <- <-; apply in_app_iff in K; destruct K as [K|[K|[]]]; try discriminate K;
      (destruct (slice _ _ _); [destruct K|destruct K as [K|[]]; discriminate K]).
  Qed.

  Lemma export_ok : forall items before used active sused, marked before used active sused ->
    groups_from (length names) used active (map fst (item_marks items)) ->
    smoothing_from (length numbers) sused (map snd (item_marks items)) ->
    Forall simple (item_elements items) ->
    let ss := export base names numbers used active sused items in
    all_groups (before ++ ss) = names /\ all_smoothing_groups (before ++ ss) = numbers /\
    (forall i, shapes_from before base ss i = mark_entries i (item_marks items)) /\
    all_elements base ss = item_elements items /\
    (forall m i n, segments m base ss i n = item_segments m i n items) /\
    Forall (exported items) ss /\
    (forall it, In it items -> In (match it with IUse m => SUse m | IElement _ _ e => element_line base e end) ss).
  Proof.
    induction items as [|[m|g k e] items IH]; intros before used active sused HM Hg Hs He ss.
    - cbn [export] in ss. destruct HM as [M1 M2 M3 M4 M5].
      assert (Hsil : Forall silent ss) by (apply Forall_app; split; [apply some_groups_silent|apply smooths_silent]).
      destruct (smooths_all (skipn sused numbers) (before ++ some_groups (skipn used names))) as (S1 & S2 & S3).
      unfold ss. rewrite app_assoc, S1, S2, some_groups_all, some_groups_smoothing, M1, M4, !firstn_skipn.
      fold ss. split; [reflexivity|]. split; [reflexivity|]. split; [|split; [|split; [|split]]].
      + intros i. rewrite <- (app_nil_r ss). rewrite silent_shapes by auto. reflexivity.
      + now apply silent_elements.
      + intros m i n. rewrite <- (app_nil_r ss). rewrite silent_segments by auto. reflexivity.
      + apply silent_exported; auto; unfold ss; intros l Hl; apply in_app_iff in Hl; destruct Hl as [Hl|Hl].
        * unfold some_groups in Hl. destruct (skipn used names) eqn:Ek; [destruct Hl|]. destruct Hl as [Hl|[]]. injection Hl as <-.
          rewrite <- Ek. intros x Hx. rewrite <- (firstn_skipn used names). apply in_app_iff. now right.
        * apply in_map_iff in Hl. destruct Hl as (n & Hn & _). discriminate.
        * unfold some_groups in Hl. destruct (skipn used names); [destruct Hl|]. destruct Hl as [Hl|[]]. discriminate.
        * apply in_map_iff in Hl. destruct Hl as (n & Hn & Hin). injection Hn as ->. rewrite <- (firstn_skipn sused numbers). apply in_app_iff. now right.
      + intros it [].
    - cbn [export] in ss. cbn [item_marks item_elements flat_map app] in Hg, Hs, He.
      assert (HM' : marked (before ++ [SUse m]) used active sused).
      { destruct HM as [M1 M2 M3 M4 M5]. split; auto.
        - rewrite all_groups_snoc. cbn [is_element names_of]. now rewrite app_nil_r.
        - intros g E. rewrite groups_at_snoc. auto.
        - rewrite all_smoothing_groups_snoc. cbn [is_element smoothing_of]. now rewrite app_nil_r. }
      destruct (IH _ _ _ _ HM' Hg Hs He) as (H1 & H2 & H3 & H4 & H5 & H6 & H7).
      rewrite <- app_assoc in H1, H2. cbn [app] in H1, H2. unfold ss. split; [exact H1|]. split; [exact H2|]. split; [|split; [|split; [|split]]].
      + intros i. cbn [shapes_from elements_of length seq map app]. rewrite Nat.add_0_r. apply H3.
      + exact H4.
      + intros m' i n. cbn [segments item_segments]. now rewrite H5.
      + constructor; [now left|]. eapply Forall_impl; [|exact H6]. intros s. apply exported_more.
      + intros it [<-|Hin]; [now left|]. right. now apply H7.
    - cbn [export] in ss. cbn [item_marks item_elements flat_map app map fst snd smoothing_from] in Hg, Hs, He.
      destruct Hs as (Hs1 & Hs2 & Hs3). inversion He as [|? ? He1 He2]; subst.
      destruct (switch_groups names used active g) as [pre used'] eqn:Esw.
      destruct (switch_ok _ _ _ _ _ _ HM Hg _ _ Esw) as (P1 & P2 & P3 & P4).
      set (pre2 := map SSmooth (slice numbers sused (S k))) in *.
      assert (Hsil : Forall silent (pre ++ pre2)) by (apply Forall_app; split; [exact P1|apply smooths_silent]).
      assert (HM1 : marked (before ++ pre ++ pre2) used' (Some g) (S k)).
      { destruct P3 as [M1 M2 M3 M4 M5]. rewrite app_assoc. destruct (smooths_all (slice numbers sused (S k)) (before ++ pre)) as (S1 & S2 & S3).
        unfold pre2. split; rewrite ?S1, ?S2, ?S3; auto. rewrite M4. apply firstn_slice. lia. }
      assert (HM2 : marked (before ++ pre ++ pre2 ++ [element_line base e]) used' (Some g) (S k)).
      { pose proof HM1 as [M1 M2 M3 M4 M5]. destruct (M3 _ eq_refl) as [_ Hu].
        replace (before ++ pre ++ pre2 ++ [element_line base e]) with ((before ++ pre ++ pre2) ++ [element_line base e]) by now rewrite <- !app_assoc.
        split; auto.
        - rewrite all_groups_snoc, element_line_is, M1. pose proof (firstn_nonempty _ Hu M2). now destruct (firstn used' names).
        - intros g' E. rewrite groups_at_snoc. specialize (M3 _ E). now destruct e.
        - rewrite all_smoothing_groups_snoc, element_line_is, M4. destruct numbers; [cbn in M5; lia|reflexivity]. }
      destruct (IH _ _ _ _ HM2 P4 Hs3 He2) as (H1 & H2 & H3 & H4 & H5 & H6 & H7).
      set (tail := export base names numbers used' (Some g) (S k) items) in *.
      assert (Ess : ss = (pre ++ pre2) ++ element_line base e :: tail) by (unfold ss; now rewrite <- app_assoc).
      clearbody ss. subst ss.
      assert (El : forall l : list statement, before ++ (pre ++ pre2) ++ element_line base e :: l = (before ++ pre ++ pre2 ++ [element_line base e]) ++ l).
      { intros l. now rewrite <- !app_assoc. }
      rewrite El. split; [exact H1|]. split; [exact H2|].
      destruct HM1 as [M1 M2 M3 M4 M5]. destruct (M3 _ eq_refl) as [Hg0 _].
      assert (Ek : smoothing_at (before ++ pre ++ pre2) = k).
      { unfold smoothing_at. rewrite M4, firstn_length. rewrite Nat.min_l by lia. reflexivity. }
      split; [|split; [|split; [|split]]].
      + intros i. rewrite silent_shapes by auto. cbn [shapes_from]. rewrite element_line_elements by auto. cbn [length seq map app].
        rewrite Hg0, Ek. cbn [item_marks flat_map app mark_entries]. f_equal.
        specialize (H3 (S i)). replace (i + 1) with (S i) by lia.
        replace ((before ++ pre ++ pre2) ++ [element_line base e]) with (before ++ pre ++ pre2 ++ [element_line base e]) by now rewrite <- !app_assoc.
        exact H3.
      + unfold all_elements. rewrite flat_map_app. fold (all_elements base (pre ++ pre2)). rewrite silent_elements by auto. cbn [app flat_map].
        rewrite element_line_elements by auto. cbn [app item_elements flat_map]. f_equal. exact H4.
      + intros m i n. rewrite silent_segments by auto. cbn [item_segments]. rewrite <- H5.
        pose proof (element_line_elements e He1) as K. destruct e; cbn [element_line segments] in *; rewrite K; reflexivity.
      + apply Forall_app. split; [|constructor].
        * apply silent_exported; auto; intros l Hl; apply in_app_iff in Hl; destruct Hl as [Hl|Hl]; auto.
          -- apply in_map_iff in Hl. destruct Hl as (n & Hn & _). discriminate.
          -- exfalso. eapply switch_no_smooth; eauto.
          -- apply in_map_iff in Hl. destruct Hl as (n & Hn & Hin). injection Hn as ->. eapply slice_in; eauto.
        * destruct e; cbn; (eexists; split; [left; reflexivity|reflexivity]).
        * eapply Forall_impl; [|exact H6]. intros s. apply exported_more.
      + intros it [<-|Hin]; apply in_app_iff; right; [now left|]. right. now apply H7.
  Qed.
End Export.
