(** What every object set returned by [obj::parse] is like. *)
From Verif Require Import ObjModel ObjImageSpec LexerProofs TextProofs ObjTop ObjState ObjFile ObjMeaning ObjFacts ObjMore ObjProps
  NumberProofs WordProofs DisplayProofs ObjWriter ObjImage.
From Coq Require Import Sorting.Sorted.
Local Open Scope list_scope.

(** * Groups *)

(** How many groups are declared before the last [g]. *)
Definition group_start (before : list statement) : nat :=
  match last_group before with
  | None => 0
  | Some (q, _) => length (all_groups q)
  end.

Lemma group_start_snoc : forall ss s, group_start (ss ++ [s]) =
  match s with SGroup _ => length (all_groups ss) | _ => group_start ss end.
Proof. intros ss s. unfold group_start. rewrite last_group_snoc. now destruct s. Qed.

Lemma all_groups_mono : forall after before, length (all_groups before) <= length (all_groups (before ++ after)).
Proof.
  induction after as [|s after IH] using rev_ind; intros before; [now rewrite app_nil_r|].
  rewrite app_assoc, all_groups_snoc. specialize (IH before). destruct (is_element s).
  - destruct (all_groups (before ++ after)); cbn in *; lia.
  - rewrite app_length. lia.
Qed.

Lemma groups_at_seq : forall before, exists k, groups_at before = seq (group_start before) k /\
  (k = 0 -> all_groups before <> []) /\ group_start before <= length (all_groups before).
Proof.
  induction before as [|s before (k & E & Hk & Hl)] using rev_ind; [exists 1; repeat split; auto; lia|].
  assert (K : all_groups before <> [] -> all_groups (before ++ [s]) <> []).
  { intros K. rewrite all_groups_snoc. destruct (is_element s), (all_groups before); try discriminate; congruence. }
  pose proof (all_groups_mono [s] before) as Hm. rewrite groups_at_snoc, group_start_snoc.
  destruct s as [| | |names| | | | |]; try (exists k; repeat split; auto; lia).
  destruct (all_groups before) as [|g gs] eqn:Eg.
  - destruct names as [|n names].
    + exists 1. repeat split; [lia|cbn; lia].
    + exists (S (length names)). repeat split; [lia|cbn; lia].
  - exists (length names). repeat split; [|exact Hm]. intros _. apply K. discriminate.
Qed.

Lemma groups_at_fit : forall before s i, is_element s = true -> In i (groups_at before) -> i < length (all_groups (before ++ [s])).
Proof. intros before s i He Hi. destruct (groups_of_element (before ++ [s]) before s [] eq_refl He) as [_ K]. auto. Qed.

Lemma groups_repeat : forall n used g m rest, groups_from n used (Some g) rest -> groups_from n used (Some g) (repeat g m ++ rest).
Proof. induction m as [|m IH]; intros rest H; [exact H|]. cbn [repeat app]. constructor. auto. Qed.

Lemma map_const : forall A B (f : A -> B) (b : B) l, (forall x, f x = b) -> map f l = repeat b (length l).
Proof. induction l as [|a l IH]; intros H; [reflexivity|]. cbn. now rewrite H, IH. Qed.

Lemma elements_only : forall base s, elements_of base s <> [] -> is_element s = true.
Proof. intros base [] H; cbn in *; try reflexivity; now destruct H. Qed.

Lemma statement_groups : forall base before s m N used active, elements_of base s = m -> length (all_groups (before ++ [s])) <= N ->
  used <= length (all_groups before) -> active = Some (groups_at before) \/ used <= group_start before ->
  exists used' active', used' <= length (all_groups (before ++ [s])) /\
    (active' = Some (groups_at (before ++ [s])) \/ used' <= group_start (before ++ [s])) /\
    forall rest, groups_from N used' active' rest -> groups_from N used active (repeat (groups_at before) (length m) ++ rest).
Proof.
  intros base before s m N used active Em HN Hu Ha. pose proof (all_groups_mono [s] before) as Hm.
  destruct m as [|e m].
  - exists used, active. split; [lia|]. split; [|auto]. rewrite groups_at_snoc, group_start_snoc. destruct s; auto.
  - assert (He : is_element s = true) by (apply (elements_only base); congruence).
    assert (Eg : groups_at (before ++ [s]) = groups_at before) by (rewrite groups_at_snoc; destruct s; auto; discriminate).
    cbn [length repeat app]. rewrite Eg. destruct Ha as [-> |Ha].
    + exists used, (Some (groups_at before)). split; [lia|]. split; [auto|]. intros rest H. constructor. now apply groups_repeat.
    + destruct (groups_at_seq before) as (k & E & Hk & Hl). destruct k as [|k].
      * exists (Nat.max 1 used), (Some []). specialize (Hk eq_refl). cbn [seq] in E. rewrite E.
        assert (0 < length (all_groups before)) by (destruct (all_groups before); [congruence|cbn; lia]).
        split; [lia|]. split; [auto|]. intros rest H'. constructor; [lia|]. now apply groups_repeat.
      * assert (Hin : group_start before + k < length (all_groups (before ++ [s]))).
        { apply groups_at_fit; auto. rewrite E. apply in_seq. lia. }
        exists (group_start before + S k), (Some (groups_at before)). split; [lia|]. split; [auto|]. intros rest H. rewrite E in *.
        constructor; try lia. now apply groups_repeat.
Qed.

Lemma shape_groups_from : forall base ss before i N used active, length (all_groups (before ++ ss)) <= N ->
  used <= length (all_groups before) -> active = Some (groups_at before) \/ used <= group_start before ->
  groups_from N used active (map se_groups (shapes_from before base ss i)).
Proof.
  intros base ss. induction ss as [|s ss IH]; intros before i N used active HN Hu Ha; [constructor|].
  cbn [shapes_from]. rewrite map_app, map_map. cbn [se_groups]. rewrite (map_const _ _ _ (groups_at before)) by reflexivity. rewrite seq_length.
  change (before ++ s :: ss) with (before ++ [s] ++ ss) in HN. rewrite app_assoc in HN.
  pose proof (all_groups_mono ss (before ++ [s])).
  destruct (statement_groups base before s _ N used active eq_refl) as (u & a & H1 & H2 & H3); auto; try lia.
Qed.

(** * Smoothing groups *)

Lemma smoothing_mono : forall s before, smoothing_at before <= smoothing_at (before ++ [s]).
Proof.
  intros s before. unfold smoothing_at. rewrite all_smoothing_groups_snoc. destruct (is_element s).
  - destruct (all_smoothing_groups before); cbn; lia.
  - rewrite app_length. lia.
Qed.

Lemma shape_smoothing : forall base ss before i,
  StronglySorted le (map se_smoothing_group (shapes_from before base ss i)) /\
  Forall (fun k => smoothing_at before <= k < length (all_smoothing_groups (before ++ ss))) (map se_smoothing_group (shapes_from before base ss i)).
Proof.
  intros base ss. induction ss as [|s ss IH]; intros before i; [split; constructor|].
  cbn [shapes_from]. rewrite map_app, map_map. cbn [se_smoothing_group]. rewrite (map_const _ _ _ (smoothing_at before)) by reflexivity. rewrite seq_length.
  destruct (IH (before ++ [s]) (i + length (elements_of base s))) as [I1 I2]. pose proof (smoothing_mono s before) as Hm.
  rewrite <- app_assoc in I2. cbn [app] in I2.
  assert (I2' : Forall (fun k => smoothing_at before <= k < length (all_smoothing_groups (before ++ s :: ss)))
    (map se_smoothing_group (shapes_from (before ++ [s]) base ss (i + length (elements_of base s))))).
  { eapply Forall_impl; [|exact I2]. cbn. intros; lia. }
  clear I2. destruct (elements_of base s) as [|e m] eqn:Em; [split; assumption|].
  assert (He : is_element s = true) by (apply (elements_only base); congruence).
  assert (Hb : smoothing_at before < length (all_smoothing_groups (before ++ s :: ss))).
  { apply nth_error_Some. rewrite (smoothing_of_element _ before s ss eq_refl He). discriminate. }
  revert I1 I2'. generalize (map se_smoothing_group (shapes_from (before ++ [s]) base ss (i + length (e :: m)))). intros l I1 I2'.
  remember (length (e :: m)) as k eqn:Ek. clear Ek. induction k as [|k [J1 J2]]; [split; assumption|].
  cbn [repeat app]. split; constructor; auto.
  eapply Forall_impl; [|exact J2]. cbn. intros; lia.
Qed.

(** * Elements and geometries *)

Lemma shape_elements : forall base ss before i, map se_element (shapes_from before base ss i) = seq i (length (all_elements base ss)).
Proof.
  intros base ss. induction ss as [|s ss IH]; intros before i; [reflexivity|]. cbn [shapes_from].
  change (all_elements base (s :: ss)) with (elements_of base s ++ all_elements base ss).
  rewrite map_app, map_map, IH, app_length, seq_app. cbn [se_element]. now rewrite map_id.
Qed.

Lemma drop_empty_front : forall gs, Forall (fun g => shapes g <> []) (removelast (drop_empty gs)).
Proof.
  induction gs as [|g gs IH]; [constructor|]. destruct gs as [|g' gs]; [constructor|].
  change (drop_empty (g :: g' :: gs)) with (match shapes g with [] => drop_empty (g' :: gs) | _ => g :: drop_empty (g' :: gs) end).
  destruct (shapes g) eqn:E; [exact IH|]. destruct (drop_empty (g' :: gs)); [constructor|].
  cbn [removelast] in *. constructor; [congruence|exact IH].
Qed.

Lemma segments_head : forall base ss m i n, exists k gs, segments m base ss i n = mkGeometry m (seq i (n + k)) :: gs /\
  Forall (fun g => material_name g <> None) gs /\ (gs = [] -> k = length (all_elements base ss) /\ forall x, ~ In (SUse x) ss).
Proof.
  intros base ss. induction ss as [|s ss IH]; intros m i n.
  - exists 0, []. rewrite Nat.add_0_r. repeat split; auto.
  - change (all_elements base (s :: ss)) with (elements_of base s ++ all_elements base ss). rewrite app_length.
    assert (Hd : (exists x, s = SUse x) \/ (forall x, s <> SUse x) /\ segments m base (s :: ss) i n = segments m base ss i (n + length (elements_of base s))).
    { destruct s; eauto; right; split; auto; discriminate. }
    destruct Hd as [(x & ->)|[Hx E]].
    + cbn [segments]. destruct (IH (Some x) (i + n) 0) as (k & gs & E & Hg & _). rewrite E.
      exists 0. eexists. rewrite Nat.add_0_r. split; [reflexivity|]. split; [constructor; [discriminate|exact Hg]|discriminate].
    + rewrite E. destruct (IH m i (n + length (elements_of base s))) as (k & gs & E' & Hg & Hk). rewrite E'.
      exists (length (elements_of base s) + k), gs. rewrite Nat.add_assoc. split; [reflexivity|]. split; [exact Hg|].
      intros Hn. destruct (Hk Hn) as [-> H']. split; [reflexivity|]. intros y [K|K]; [now apply (Hx y)|now apply (H' y)].
Qed.

Lemma drop_empty_named : forall gs, Forall (fun g => material_name g <> None) gs -> Forall (fun g => material_name g <> None) (drop_empty gs).
Proof. intros gs H. rewrite Forall_forall in *. intros g Hg. apply H. now apply in_drop_empty. Qed.

Lemma drop_empty_some : forall g gs, drop_empty (g :: gs) <> [].
Proof.
  intros g gs. revert g. induction gs as [|g' gs IH]; intros g; [discriminate|].
  change (drop_empty (g :: g' :: gs)) with (match shapes g with [] => drop_empty (g' :: gs) | _ => g :: drop_empty (g' :: gs) end).
  destruct (shapes g); [apply IH|discriminate].
Qed.

Lemma proper_elements : forall base now s, proper base now s -> is_element s = true -> elements_of base s <> [].
Proof.
  intros base now s Hp He E. pose proof (length_written base s) as L. rewrite E in L.
  destruct s as [| | | | | |ks|rs|rs]; try discriminate He; cbn in Hp, L; rewrite ?map_length, ?seq_length in L.
  - destruct Hp as [Hp _]. destruct ks; [congruence|discriminate].
  - destruct Hp as [Hp _]. lia.
  - destruct Hp as [Hp _]. lia.
Qed.

Lemma geometries_are_possible : forall base n ss, proper_body base base ss -> drawable (n, ss) ->
  geometries_possible (length (all_elements base ss)) (drop_empty (segments None base ss 0 0)).
Proof.
  intros base n ss Hp (s & Hs & Hd). cbn [snd] in Hs. split; [now rewrite shapes_drop_empty, shapes_segments|].
  pose proof (drop_empty_front (segments None base ss 0 0)) as Hf.
  destruct (segments_head base ss None 0 0) as (k & gs & E & Hg & Hk). rewrite E in *. cbn [plus] in *.
  destruct gs as [|g' gs].
  - cbn [drop_empty] in *. split; [exact Hf|]. split; [constructor|]. intros _. cbn [shapes]. destruct (Hk eq_refl) as [-> Hu].
    assert (Hne : all_elements base ss <> []).
    { destruct Hd as [He|(x & ->)]; [|destruct (Hu x Hs)]. apply in_split in Hs. destruct Hs as (b & a & Es).
      pose proof (proper_elements _ _ _ (proper_at _ _ _ _ _ _ Hp Es) He) as Hne. intros K. apply Hne.
      rewrite Es in K. unfold all_elements in K. rewrite flat_map_app in K. cbn [flat_map] in K. apply app_eq_nil in K. destruct K as [_ K].
      now apply app_eq_nil in K. }
    destruct (all_elements base ss); [congruence|discriminate].
  - change (drop_empty (mkGeometry None (seq 0 k) :: g' :: gs)) with
      (match seq 0 k with [] => drop_empty (g' :: gs) | _ => mkGeometry None (seq 0 k) :: drop_empty (g' :: gs) end) in *.
    pose proof (drop_empty_named _ Hg) as Hn. destruct (seq 0 k) eqn:Ek.
    + pose proof (drop_empty_some g' gs) as Hne. destruct (drop_empty (g' :: gs)) as [|g1 gs1]; [congruence|]. inversion Hn; subst.
      split; [exact Hf|]. split; [assumption|]. intros K. congruence.
    + split; [exact Hf|]. split; [exact Hn|]. intros _. discriminate.
Qed.

(** * Names and numbers *)

Lemma reads_smooth : forall base now ts s rest, reads_statement base now ts s rest -> forall n, In n (smoothing_of s) -> (n < 2 ^ 64)%N.
Proof.
  intros base now ts s rest H n Hn. destruct H; cbn in Hn; try contradiction. destruct Hn as [<-|[]].
  match goal with K : smoothing_token _ _ |- _ => destruct K as [|t' n' Ku]; [reflexivity|] end. apply parse_usize_iff in Ku. apply Ku.
Qed.

Lemma body_smooth : forall base now ts ss rest, reads_body base now ts ss rest -> Forall (fun s => forall n, In n (smoothing_of s) -> (n < 2 ^ 64)%N) ss.
Proof. intros base now ts ss rest H. induction H; auto. constructor; auto. eapply reads_smooth; eauto. Qed.

Lemma objects_smooth : forall now ts os rest, reads_objects now ts os rest ->
  Forall (fun o => Forall (fun s => forall n, In n (smoothing_of s) -> (n < 2 ^ 64)%N) (snd o)) os.
Proof. intros now ts os rest H. induction H; auto. constructor; auto. eapply body_smooth; eauto. Qed.

Lemma file_smooth : forall ts f rest, reads_file ts f rest ->
  Forall (fun o => Forall (fun s => forall n, In n (smoothing_of s) -> (n < 2 ^ 64)%N) (snd o)) (file_objects f).
Proof.
  intros ts f rest H. inversion H; subst; cbn [file_objects].
  - eapply objects_smooth; eauto.
  - constructor; [eapply body_smooth; eauto|eapply objects_smooth; eauto].
Qed.

Lemma read_names : forall (P : bytes -> Prop) ts f, reads_file ts f [] -> Forall P ts -> names_writable P (map fst (file_objects f)).
Proof.
  intros P ts f H HP. destruct (file_names _ _ H) as (_ & _ & K). rewrite Forall_forall in HP. unfold names_writable.
  destruct (file_objects f) as [|[n ss] os]; [exact I|]. cbn [map fst]. split.
  - destruct (K 0 n ss eq_refl) as ([K'|[_ ->]] & _); auto.
  - apply Forall_forall. intros x Hx. apply in_map_iff in Hx. destruct Hx as ([n' ss'] & <- & Hin). apply In_nth_error in Hin.
    destruct Hin as [i Hi]. destruct (K (S i) n' ss' Hi) as ([K'|[K' _]] & _); [auto|discriminate].
Qed.

(** What can be read can be written. *)
Lemma read_writable : forall (P : bytes -> Prop) ts f, reads_file ts f [] -> Forall P ts -> writable P f.
Proof.
  intros P ts f H HP. split; [|split; [eapply read_names; eauto|]].
  - destruct (file_names _ _ H) as (K1 & K2 & _). rewrite Forall_forall in HP. apply Forall_forall. intros x Hx. split; [auto|]. intros ->. auto.
  - pose proof (file_smooth _ _ _ H) as Hs. pose proof (file_reads_f64 _ _ _ H) as Hf. destruct (file_names _ _ H) as (_ & _ & K).
    rewrite Forall_forall in *. intros [n ss] Ho. specialize (Hs _ Ho). specialize (Hf _ Ho). cbn [snd] in *.
    apply In_nth_error in Ho. destruct Ho as [i Hi]. destruct (K i n ss Hi) as (_ & K1 & K2).
    rewrite Forall_forall in *. intros s Hin. specialize (Hs _ Hin). specialize (Hf _ Hin).
    assert (Hn : incl (names_in s) ts) by (intros x Hx; apply K1, in_flat_map; eauto).
    assert (Hn' : ~ In nl (names_of s)) by (intros Hx; apply K2, in_flat_map; eauto).
    destruct s; cbn in *; try exact Hf; try exact I.
    + apply Forall_forall. intros x Hx. split; auto. intros ->. auto.
    + apply Hs. auto.
    + apply HP, Hn. now left.
Qed.

Theorem parsed_possible_names : forall (P : bytes -> Prop) dbg input set, fits input -> parse dbg input = Ok set ->
  (forall ts, tokenizes input ts -> Forall P ts) -> P (lit "default") -> set_possible P set.
Proof.
  intros P dbg input set Hf Hok HP Hdef. destruct (parsed_said _ _ _ Hf Hok) as (f & Hs & Hd & E). pose proof Hs as (ts & Ht & Hr).
  pose proof (read_writable P ts f Hr (HP _ Ht)) as (W1 & W2 & W3).
  split; [rewrite E; exact W1|]. split; [now rewrite (parsed_names _ _ _ Hf Hok f Hs)|].
  apply Forall_forall. intros ob Hob. destruct (parsed_f64 _ _ _ _ Hf Hok Hob) as (F1 & F2 & F3).
  pose proof (parsed_elements _ _ _ _ Hf Hok Hob) as HE.
  apply In_nth_error in Hob. destruct Hob as [i Hi].
  destruct (nth_error (file_objects f) i) as [[n ss]|] eqn:En.
  2:{ exfalso. apply nth_error_None in En. rewrite <- (parsed_count _ _ _ Hf Hok f Hs) in En.
      assert (i < length (objects set)) by (apply nth_error_Some; congruence). lia. }
  pose proof (nth_is _ _ _ Hf Hok f Hs i ob n ss Hi En) as Eo.
  pose proof (proper_nth _ _ _ _ (file_proper _ _ _ Hr) En) as Hp. rewrite <- base_is in Hp. cbn [snd] in Hp.
  assert (Hin : In (n, ss) (file_objects f)) by (eapply nth_error_In; eauto).
  rewrite Forall_forall in Hd, W3. specialize (Hd _ Hin). specialize (W3 _ Hin). cbn [snd] in W3. rewrite Forall_forall in W3.
  split; auto; subst ob; cbn [object_of group_set smoothing_group_set element_set shape_set geometry_set].
  - apply Forall_forall. intros x Hx. apply declared_in in Hx. destruct Hx as [->|Hx]; [split; [exact Hdef|discriminate]|].
    apply in_flat_map in Hx. destruct Hx as (s & Hs' & Hx). specialize (W3 _ Hs'). destruct s; cbn in Hx; try contradiction.
    cbn in W3. rewrite Forall_forall in W3. auto.
  - apply Forall_forall. intros x Hx. apply declared_in in Hx. destruct Hx as [->|Hx]; [reflexivity|].
    apply in_flat_map in Hx. destruct Hx as (s & Hs' & Hx). specialize (W3 _ Hs'). destruct s; cbn in Hx; try contradiction.
    destruct Hx as [<-|[]]. exact W3.
  - apply shape_elements.
  - apply shape_groups_from; [apply le_n|apply Nat.le_0_l|right; apply Nat.le_0_l].
  - destruct (shape_smoothing (base_of f i) ss [] 0) as [S1 S2]. split; [now apply StronglySorted_Sorted|].
    eapply Forall_impl; [|exact S2]. intros k [_ Hk]. exact Hk.
  - eapply geometries_are_possible; eauto.
  - intros g m Hg Em. apply in_drop_empty in Hg. destruct (segments_material _ _ _ _ _ _ Hg) as [K|(x & K & Hx)]; rewrite K in Em; [discriminate|].
    injection Em as ->. exact (W3 _ Hx).
Qed.

Theorem parsed_possible : forall dbg input set, fits input -> parse dbg input = Ok set -> set_possible is_token set.
Proof.
  intros dbg input set Hf Hok. eapply parsed_possible_names; eauto.
  - intros ts Ht. apply Forall_forall. intros t Hin. now apply (tokens_are _ _ Ht).
  - apply word_token, lit_word; [discriminate|reflexivity].
Qed.

Theorem parsed_possible_utf8 : forall dbg input set, fits input -> valid_utf8 input -> parse dbg input = Ok set ->
  set_possible (fun n => is_token n /\ valid_utf8 n) set.
Proof.
  intros dbg input set Hf Hu Hok. eapply parsed_possible_names; eauto.
  - intros ts Ht. pose proof (tokenizes_utf8 _ _ Ht Hu) as K. rewrite Forall_forall in *. intros t Hin. split; [now apply (tokens_are _ _ Ht)|auto].
  - split; [|now apply plain_utf8]. apply word_token, lit_word; [discriminate|reflexivity].
Qed.

(** * Both ways *)

Lemma set_possible_more : forall (P Q : bytes -> Prop) set, (forall n, P n -> Q n) -> set_possible P set -> set_possible Q set.
Proof.
  intros P Q set HPQ (H1 & H2 & H3). split; [|split].
  - eapply Forall_impl; [|exact H1]. intros a [K1 K2]. auto.
  - unfold names_writable in *. destruct (map _ _); [exact I|]. destruct H2 as [[->|H2] H4]; (split; [auto|eapply Forall_impl; eauto]).
  - eapply Forall_impl; [|exact H3]. intros ob H. destruct H. split; auto.
    + eapply Forall_impl; [|eassumption]. intros a [K1 K2]. auto.
    + intros; eauto.
Qed.

Theorem every_set : forall dbg set, set_possible (fun n => is_token n /\ valid_utf8 n) set -> fits (write_set set) ->
  valid_utf8 (write_set set) /\ parse dbg (write_set set) = Ok set.
Proof.
  intros dbg set H Hf. split; [now apply write_set_utf8|]. apply write_set_read; auto.
  eapply set_possible_more; [|exact H]. intros n [K _]. exact K.
Qed.

Theorem parsed_again : forall dbg dbg' input set, fits input -> parse dbg input = Ok set -> fits (write_set set) ->
  parse dbg' (write_set set) = Ok set.
Proof. intros dbg dbg' input set Hf Hok Hw. apply write_set_read; auto. exact (parsed_possible _ _ _ Hf Hok). Qed.

Theorem says_written : forall dbg input f, fits input -> says input f -> Forall drawable (file_objects f) -> fits (write_file f) ->
  well_formed f /\ writable is_token f /\ parse dbg (write_file f) = Ok (file_means f).
Proof.
  intros dbg input f Hf (ts & Ht & Hr) Hd Hw.
  assert (K1 : well_formed f) by (split; [eapply file_proper; eauto|exact Hd]).
  assert (K2 : writable is_token f).
  { eapply read_writable; eauto. apply Forall_forall. intros t Hin. now apply (tokens_are _ _ Ht). }
  split; [exact K1|]. split; [exact K2|]. now apply write_file_read.
Qed.
