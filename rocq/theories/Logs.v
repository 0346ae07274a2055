(** The parser that keeps a record gives the answers of the parser, and its
    record has no token too often. *)
From Coq Require Import Lia.
From Verif Require Import ObjModel MtlModel TokenSpec LexerProofs RelProofs SourceProofs LogSpec LogProofs.
From Verif Require Calls ObjLog MtlLog.
Local Open Scope char_scope.
Local Open Scope list_scope.
Local Open Scope nat_scope.

(** Keeping a record does not change the answers. *)
Definition same_source (s : ts_state logged) (s' : ts_state lexer_source) : Prop := fst s = s'.

Lemma same_peek : forall a b, same_source a b ->
  fst (ts_peek logged a) = fst (ts_peek lexer_source b) /\
  same_source (snd (ts_peek logged a)) (snd (ts_peek lexer_source b)).
Proof. intros [a n] b <-. cbn. unfold same_source. destruct (peekable_peek a); auto. Qed.

Lemma same_next : forall a b, same_source a b ->
  fst (ts_next logged a) = fst (ts_next lexer_source b) /\
  same_source (snd (ts_next logged a)) (snd (ts_next lexer_source b)).
Proof. intros [a n] b <-. cbn. unfold same_source. destruct (peekable_next a); auto. Qed.

(** ** The places of the tokens *)

Lemma placed_separators : forall s n ps, placed (n + (length s - length (drop_while is_whitespace s))) (drop_while is_whitespace s) ps -> placed n s ps.
Proof.
  induction s as [|c s IH]; intros n ps H.
  - cbn in H. now rewrite Nat.add_0_r in H.
  - cbn [drop_while] in H. destruct (is_whitespace c) eqn:E.
    + apply placed_separator; [now apply is_whitespace_spec|]. apply IH.
      pose proof (drop_while_length is_whitespace s). cbn [length] in H.
      replace (S n + (length s - length (drop_while is_whitespace s))) with (n + (S (length s) - length (drop_while is_whitespace s))) by lia. exact H.
    + now rewrite Nat.sub_diag, Nat.add_0_r in H.
Qed.

Lemma placed_remark : forall s r n ps, s = "#" :: r ->
  placed (n + (length s - length (drop_while (fun ch => negb (is_newline ch)) s))) (drop_while (fun ch => negb (is_newline ch)) s) ps ->
  placed n s ps.
Proof.
  intros s r n ps -> H. cbn [drop_while] in H. change (negb (is_newline "#")) with true in H. cbn iota in H.
  set (p := fun ch => negb (is_newline ch)) in *.
  pose proof (take_drop_while p r) as T. pose proof (f_equal (@length byte) T) as L. rewrite app_length in L.
  rewrite <- T at 1. apply placed_comment.
  - eapply Forall_impl; [|apply take_while_forall]. intros a Ha. now apply not_newline_spec.
  - apply starts_with_drop. intros c Hc. apply is_newline_spec. unfold p in Hc. now destruct (is_newline c).
  - cbn [length] in H. unfold bytes, byte in *. replace (n + S (length (take_while p r))) with (n + (S (length r) - length (drop_while p r))) by lia. exact H.
Qed.

Lemma placed_none : forall n s, next_tok s = None -> placed n s [].
Proof.
  intros n s H. unfold next_tok in H. apply placed_separators.
  set (k := n + _). clearbody k.
  destruct (drop_while is_whitespace s) as [|c u] eqn:E; [constructor|].
  destruct (Ascii.eqb_spec c "#") as [->|Hc].
  - apply (placed_remark _ u); auto. set (k' := k + _). clearbody k'.
    destruct (drop_while (fun ch => negb (is_newline ch)) ("#" :: u)) as [|c2 u2]; [constructor|].
    destruct (is_newline c2); discriminate.
  - destruct (is_newline c); discriminate.
Qed.

Lemma placed_some : forall n s t r ps, next_tok s = Some (t, r) ->
  placed (n + (length s - length r)) r ps -> placed n s ((t, n + (length s - length r)) :: ps).
Proof.
  intros n s t r ps H Hr. pose proof (drop_while_length is_whitespace s) as L1. unfold next_tok in H. apply placed_separators.
  destruct (drop_while is_whitespace s) as [|c u] eqn:E; [discriminate|].
  destruct (Ascii.eqb_spec c "#") as [->|Hc].
  - pose proof (drop_while_length (fun ch => negb (is_newline ch)) ("#" :: u)) as L2. apply (placed_remark _ u); auto.
    destruct (drop_while (fun ch => negb (is_newline ch)) ("#" :: u)) as [|c2 u2] eqn:E2; [discriminate|].
    pose proof (drop_while_head _ _ _ _ E2) as Hn.
    apply negb_false_iff in Hn. rewrite Hn in H. injection H as <- <-.
    cbn [length] in L1, L2 |- *.
    replace (n + (length s - length u2)) with (S (n + (length s - S (length u)) + (S (length u) - S (length u2)))) in * by lia.
    apply placed_line_end; auto. now apply is_newline_spec.
  - destruct (is_newline c) eqn:En.
    + injection H as <- <-. cbn [length] in L1 |- *.
      replace (n + (length s - length u)) with (S (n + (length s - S (length u)))) in * by lia.
      apply placed_line_end; auto. now apply is_newline_spec.
    + set (p := fun ch => negb (is_whitespace_or_newline ch || Ascii.eqb ch "#")) in *.
      assert (Hp : p c = true).
      { eapply head_not_sep; eauto. now apply Ascii.eqb_neq. }
      pose proof (take_drop_while p (c :: u)) as T. pose proof (f_equal (@length byte) T) as L. rewrite app_length in L.
      assert (Et : t = take_while p (c :: u) /\ r = drop_while p (c :: u)) by (injection H as <- <-; auto). destruct Et as [-> ->].
      unfold bytes, byte in *. rewrite <- T at 2.
      replace (n + (length s - length (drop_while p (c :: u)))) with (n + (length s - length (c :: u)) + length (take_while p (c :: u))) in * by lia.
      apply placed_word; auto.
      * cbn. rewrite Hp. discriminate.
      * eapply Forall_impl; [|exact (take_while_forall p (c :: u))].
        intros a Ha. now apply is_word_spec.
      * apply starts_with_drop. intros a Ha Hw. apply is_word_spec in Hw.
        unfold p in Ha. congruence.
Qed.

(** The other way round. *)
Lemma take_drop_app : forall p w s, Forall (fun c => p c = true) w -> starts_with (fun c => p c = false) s ->
  take_while p (w ++ s) = w /\ drop_while p (w ++ s) = s.
Proof.
  induction w as [|c w IH]; intros s Hw Hs.
  - destruct s as [|c s]; [auto|]. cbn in *. now rewrite Hs.
  - apply Forall_cons_iff in Hw. destruct Hw as [Hc Hw]. cbn. rewrite Hc. destruct (IH s Hw Hs) as [-> ->]. auto.
Qed.

Lemma placed_inv : forall n s ps, placed n s ps ->
  match next_tok s with
  | Some (t, r) => exists ps', ps = (t, n + (length s - length r)) :: ps' /\ placed (n + (length s - length r)) r ps'
  | None => ps = []
  end.
Proof.
  induction 1 as [n|n c s ps Hc H IH|n c s ps Hc H IH|n x s ps Hx Hs H IH|n w s ps Hw Hb Hs H IH].
  - reflexivity.
  - assert (E : next_tok (c :: s) = next_tok s).
    { unfold next_tok. cbn [drop_while]. now rewrite (proj2 (is_whitespace_spec c) Hc). }
    rewrite E. destruct (next_tok s) as [[t r]|] eqn:En; auto. apply next_tok_shorter in En.
    cbn [length]. replace (n + (S (length s) - length r)) with (S n + (length s - length r)) by lia. exact IH.
  - assert (E : next_tok (c :: s) = Some ([c], s)).
    { unfold next_tok. cbn [drop_while]. pose proof (proj2 (is_newline_spec c) Hc) as En. rewrite (newline_not_ws c En).
      destruct (Ascii.eqb_spec c "#") as [->|_]; [discriminate|]. now rewrite En. }
    rewrite E. exists ps. cbn [length]. replace (n + (S (length s) - length s)) with (S n) by lia. auto.
  - assert (E : next_tok ("#" :: x ++ s) = next_tok s).
    { unfold next_tok at 1. cbn [drop_while]. change (is_whitespace "#") with false. cbn iota. change (Ascii.eqb "#" "#") with true. cbn iota.
      cbn [drop_while]. change (negb (is_newline "#")) with true. cbn iota.
      rewrite (proj2 (take_drop_app (fun ch => negb (is_newline ch)) x s
                 ltac:(eapply Forall_impl; [|exact Hx]; intros a Ha; now apply not_newline_spec)
                 ltac:(destruct s as [|c s]; [exact I|]; cbn in *; apply negb_false_iff; now apply is_newline_spec))).
      unfold next_tok. destruct s as [|c s]; [reflexivity|]. cbn in Hs. pose proof (proj2 (is_newline_spec c) Hs) as En.
      cbn [drop_while]. rewrite (newline_not_ws c En). destruct (Ascii.eqb_spec c "#") as [->|_]; [discriminate|]. now rewrite En. }
    rewrite E. destruct (next_tok s) as [[t r]|] eqn:En; auto. apply next_tok_shorter in En.
    cbn [length]. unfold bytes, byte in *. rewrite app_length. replace (n + (S (length x + length s) - length r)) with (n + S (length x) + (length s - length r)) by lia. exact IH.
  - assert (E : next_tok (w ++ s) = Some (w, s)).
    { destruct w as [|c w]; [congruence|]. unfold next_tok. pose proof Hb as Hb'. apply Forall_cons_iff in Hb'. destruct Hb' as [Hc _].
      destruct (word_byte_tests c Hc) as (E1 & E2 & E3).
      cbn [app drop_while]. rewrite E1, E3, E2.
      destruct (take_drop_app (fun ch => negb (is_whitespace_or_newline ch || Ascii.eqb ch "#")) (c :: w) s) as [T1 T2].
      - eapply Forall_impl; [|exact Hb]. intros a Ha. now apply is_word_spec.
      - destruct s as [|d s]; [exact I|]. cbn in Hs |- *. destruct (negb (is_whitespace_or_newline d || Ascii.eqb d "#")) eqn:Ed; auto.
        apply is_word_spec in Ed. contradiction.
      - cbn [app] in T1, T2. now rewrite T1, T2. }
    rewrite E. exists ps. unfold bytes, byte in *. rewrite app_length. replace (n + (length w + length s - length s)) with (n + length w) by lia. auto.
Qed.

Lemma placed_det : forall k n s ps ps', length s < k -> placed n s ps -> placed n s ps' -> ps = ps'.
Proof.
  induction k as [|k IH]; intros n s ps ps' Hk H H'; [lia|]. apply placed_inv in H, H'.
  destruct (next_tok s) as [[t r]|] eqn:E; [|congruence]. apply next_tok_shorter in E.
  destruct H as (a & -> & H), H' as (b & -> & H'). f_equal. eapply IH; eauto. lia.
Qed.

Lemma placed_tokenizes : forall n s ps, placed n s ps -> tokenizes s (map fst ps).
Proof.
  induction 1; cbn [map fst]; [apply tk_end|apply tk_separator|apply tk_line_end|apply tk_comment|apply tk_word]; auto.
Qed.

(** ** The lexer is as good as the list of its tokens with their places *)

Definition records (s : ts_state logged) (l : ts_state llist) : Prop :=
  lexer_ok (inner (fst s)) /\ snd s = snd l /\
  match cache (fst s) with
  | None => placed (place (fst s)) (unread (inner (fst s))) (fst l)
  | Some None => fst l = [] /\ unread (inner (fst s)) = []
  | Some (Some t) => exists ps, fst l = (t, place (fst s)) :: ps /\ placed (place (fst s)) (unread (inner (fst s))) ps
  end.

Lemma read : forall lx ps, lexer_ok lx -> placed (stream_position lx) (unread lx) ps ->
  let '(t, lx') := lexer_next_token lx in
  lexer_ok lx' /\
  match t with
  | Some t => exists ps', ps = (t, stream_position lx') :: ps' /\ placed (stream_position lx') (unread lx') ps'
  | None => ps = [] /\ unread lx' = []
  end.
Proof.
  intros lx ps Hok H. apply placed_inv in H. destruct (lexer_next_token_spec lx Hok) as [S Ho].
  pose proof (Calls.next_token_stream lx) as Es.
  destruct (lexer_next_token lx) as [t lx']. cbn [fst snd] in *. split; [exact Ho|].
  destruct (next_tok (unread lx)) as [[t' r]|] eqn:E.
  - destruct S as [-> <-]. apply next_tok_shorter in E. rewrite !unread_length in *. unfold lexer_ok in *. rewrite Es in *.
    replace (stream_position lx + (length (stream lx) - stream_position lx - (length (stream lx) - stream_position lx'))) with (stream_position lx') in H by lia.
    exact H.
  - destruct S as [-> S]. auto.
Qed.

Lemma records_peek : forall a b, records a b ->
  fst (ts_peek logged a) = fst (ts_peek llist b) /\ records (snd (ts_peek logged a)) (snd (ts_peek llist b)).
Proof.
  intros [[lx c] n] [l n'] (Hok & Hn & Hc). cbn in Hok, Hn, Hc |- *. subst n'. unfold peekable_peek. cbn [cache inner].
  destruct c as [[t|]|].
  - destruct Hc as (ps & -> & Hc). cbn. split; auto. split; [exact Hok|]. split; [reflexivity|]. cbn. eauto.
  - destruct Hc as [-> Hc]. cbn. split; auto. split; [exact Hok|]. split; [reflexivity|]. cbn. auto.
  - pose proof (read lx l Hok Hc) as R. destruct (lexer_next_token lx) as [[t|] lx'], R as [Ho R].
    + destruct R as (ps & -> & R). cbn. split; auto. split; [exact Ho|]. split; [reflexivity|]. cbn. eauto.
    + destruct R as [-> R]. cbn. split; auto. split; [exact Ho|]. split; [reflexivity|]. cbn. auto.
Qed.

Lemma records_next : forall a b, records a b ->
  fst (ts_next logged a) = fst (ts_next llist b) /\ records (snd (ts_next logged a)) (snd (ts_next llist b)).
Proof.
  intros [[lx c] n] [l n'] (Hok & Hn & Hc). cbn in Hok, Hn, Hc |- *. subst n'. unfold peekable_next. cbn [cache inner].
  destruct c as [[t|]|].
  - destruct Hc as (ps & -> & Hc). cbn. split; auto. split; [exact Hok|]. split; [reflexivity|]. cbn. exact Hc.
  - destruct Hc as [-> Hc]. cbn. split; auto. split; [exact Hok|]. split; [reflexivity|]. cbn. rewrite Hc. constructor.
  - pose proof (read lx l Hok Hc) as R. destruct (lexer_next_token lx) as [[t|] lx'], R as [Ho R].
    + destruct R as (ps & -> & R). cbn. split; auto. split; [exact Ho|]. split; [reflexivity|]. cbn. exact R.
    + destruct R as [-> R]. cbn. split; auto. split; [exact Ho|]. split; [reflexivity|]. cbn. rewrite R. constructor.
Qed.

Lemma asked_new : forall n ps, asked n ps (mkParser (S := llist) 1 (ps, [])) 0.
Proof.
  intros n ts. exists [], []. split; [reflexivity|]. split; [apply gone_none|]. now destruct ts.
Qed.

Lemma records_new : forall input ps, placed 0 input ps ->
  related (S1 := logged) (S2 := llist) records (logged_new input) (mkParser (S := llist) 1 (ps, [])).
Proof.
  intros input ps H. split; [reflexivity|]. split; [|split; [reflexivity|exact H]]. unfold lexer_ok. cbn. lia.
Qed.

Lemma obj_answers : forall dbg input ps, placed 0 input ps ->
  let run := parse_objset dbg (ObjModel.fuel_for input) (logged_new input) in
  fst run = ObjModel.parse dbg input /\ repeated 8 ps (answers (snd run)).
Proof.
  intros dbg input ps H run. set (fuel := ObjModel.fuel_for input) in *. split.
  - destruct (sim_parse_objset (S1 := logged) (S2 := lexer_source) same_source no_escape fuel fuel dbg dbg
                same_peek same_next (or_introl eq_refl) (or_introl eq_refl)
                (logged_new input) (parser_new input)) as [(x & [] & _)|[E _]]; auto.
    split; reflexivity.
  - set (lp := mkParser (S := llist) 1 (ps, [])).
    destruct (sim_parse_objset (S1 := logged) (S2 := llist) records no_escape fuel fuel dbg dbg
                records_peek records_next (or_introl eq_refl) (or_introl eq_refl)
                (logged_new input) lp) as [(x & [] & _)|(_ & _ & _ & Hn & _)]; [now apply records_new|].
    fold run in Hn. unfold answers. rewrite Hn.
    destruct (ObjLog.lasts_objset dbg fuel any ps lp 0 I (asked_new 8 _) (le_n 8)) as (j & A & J).
    apply asked_repeated in A; [exact A|]. destruct (fst (parse_objset dbg fuel lp)); lia.
Qed.

Lemma mtl_answers : forall input ps, placed 0 input ps ->
  let run := parse_mtlset (MtlModel.fuel_for input) (logged_new input) in
  fst run = MtlModel.parse input /\ repeated 4 ps (answers (snd run)).
Proof.
  intros input ps H run. set (fuel := MtlModel.fuel_for input) in *. split.
  - destruct (sim_parse_mtlset (S1 := logged) (S2 := lexer_source) same_source no_escape fuel fuel
                same_peek same_next (or_introl eq_refl)
                (logged_new input) (parser_new input)) as [(x & [] & _)|[E _]]; auto.
    split; reflexivity.
  - set (lp := mkParser (S := llist) 1 (ps, [])).
    destruct (sim_parse_mtlset (S1 := logged) (S2 := llist) records no_escape fuel fuel
                records_peek records_next (or_introl eq_refl)
                (logged_new input) lp) as [(x & [] & _)|(_ & _ & _ & Hn & _)]; [now apply records_new|].
    fold run in Hn. unfold answers. rewrite Hn.
    destruct (MtlLog.lasts_mtlset fuel any ps lp 0 I (asked_new 4 _) (le_n 4)) as (j & A & J).
    apply asked_repeated in A; [exact A|]. destruct (fst (parse_mtlset fuel lp)); lia.
Qed.

(** ** Every text has places *)

Fixpoint place_list (k n : nat) (s : bytes) : list (bytes * nat) :=
  match k with
  | 0 => []
  | S k' =>
      match next_tok s with
      | Some (t, r) => (t, n + (length s - length r)) :: place_list k' (n + (length s - length r)) r
      | None => []
      end
  end.

Lemma placed_list : forall k n s, length s < k -> placed n s (place_list k n s).
Proof.
  induction k as [|k IH]; intros n s Hk; [lia|]. cbn [place_list]. destruct (next_tok s) as [[t r]|] eqn:E.
  - pose proof (next_tok_shorter _ _ _ E). eapply placed_some; eauto. apply IH. lia.
  - now apply placed_none.
Qed.

Lemma placed_by : forall s ps, place_list (S (length s)) 0 s = ps -> placed 0 s ps.
Proof. intros s ps <-. apply placed_list. lia. Qed.

Lemma places_of : forall input, exists ps, placed 0 input ps /\ tokenizes input (map fst ps) /\ forall ps', placed 0 input ps' -> ps' = ps.
Proof.
  intro input. exists (place_list (S (length input)) 0 input). assert (H : placed 0 input (place_list (S (length input)) 0 input)) by (apply placed_list; lia). split; [exact H|]. split; [now apply placed_tokenizes in H|].
  intros ps' H'. eapply placed_det; eauto.
Qed.

(** ** The bytes that are handed out *)

Lemma volume_app : forall a b, volume (a ++ b) = volume a + volume b.
Proof. induction a as [|t a IH]; intro b; cbn; [reflexivity|]. rewrite IH. lia. Qed.

Lemma volume_repeat : forall (t : bytes * nat) k, volume (map fst (repeat t k)) = k * length (fst t).
Proof. induction k as [|k IH]; cbn; [reflexivity|]. now rewrite IH. Qed.

Lemma repeated_volume : forall n (ts l : list (bytes * nat)), repeated n ts l -> volume (map fst l) <= n * volume (map fst ts).
Proof.
  induction 1 as [ts|k t ts l H1 H2 H IH]; [apply Nat.le_0_l|]. rewrite map_app, volume_app, volume_repeat. cbn [map volume].
  rewrite Nat.mul_add_distr_l. apply Nat.add_le_mono; [now apply Nat.mul_le_mono_r|exact IH].
Qed.

Lemma tokenizes_volume : forall s ts, tokenizes s ts -> volume ts <= length s.
Proof.
  induction 1 as [|c s ts Hc H IH|c s ts Hc H IH|x s ts Hx Hs H IH|w s ts Hw Hw' Hs H IH]; cbn [volume length]; try lia.
  - pose proof (app_length x s). unfold bytes, byte in *. lia.
  - pose proof (app_length w s). unfold bytes, byte in *. lia.
Qed.

Lemma obj_volume : forall dbg input,
  volume (map fst (answers (snd (parse_objset dbg (ObjModel.fuel_for input) (logged_new input))))) <= 8 * length input.
Proof.
  intros dbg input. destruct (places_of input) as (ps & Hp & _). destruct (obj_answers dbg input _ Hp) as [_ H].
  apply repeated_volume in H. pose proof (tokenizes_volume _ _ (placed_tokenizes _ _ _ Hp)). lia.
Qed.

Lemma mtl_volume : forall input,
  volume (map fst (answers (snd (parse_mtlset (MtlModel.fuel_for input) (logged_new input))))) <= 4 * length input.
Proof.
  intros input. destruct (places_of input) as (ps & Hp & _). destruct (mtl_answers input _ Hp) as [_ H].
  apply repeated_volume in H. pose proof (tokenizes_volume _ _ (placed_tokenizes _ _ _ Hp)). lia.
Qed.
