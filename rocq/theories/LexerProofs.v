(** The lexer model computes the token sequence of TokenSpec.v. *)
From Verif Require Import Lexer TokenSpec.
Local Open Scope char_scope.
Local Open Scope list_scope.
Local Open Scope nat_scope.

(** * The loop equation of [skip_while] *)

Definition unread (lx : lexer) : bytes := skipn (stream_position lx) (stream lx).

Lemma lexer_peek_unread : forall lx, lexer_peek lx = hd_error (unread lx).
Proof.
  intros [l p s]; unfold lexer_peek, unread; cbn.
  revert p; induction s as [|c s IH]; intros [|p]; cbn; auto.
Qed.

Lemma unread_advance : forall lx, unread (lexer_advance lx) = tl (unread lx).
Proof.
  intros [l p s]; unfold lexer_advance, unread; cbn.
  rewrite Nat.add_1_r; clear l.
  revert p; induction s as [|c s IH]; intros [|p]; cbn; auto.
  apply (IH p).
Qed.

Lemma stream_advance : forall lx, stream (lexer_advance lx) = stream lx.
Proof. reflexivity. Qed.

Lemma position_advance : forall lx, stream_position (lexer_advance lx) = stream_position lx + 1.
Proof. reflexivity. Qed.

Lemma skip_while_loop_acc : forall p u lx n,
  skip_while_loop p u lx n =
  (fst (skip_while_loop p u lx 0), n + snd (skip_while_loop p u lx 0)).
Proof.
  induction u as [|c u IH]; intros lx n; cbn.
  - f_equal; lia.
  - destruct (p c); cbn.
    + rewrite IH. rewrite (IH _ 1). cbn. f_equal; lia.
    + f_equal; lia.
Qed.

(** lexer.rs:64-74 as an equation. *)
Lemma skip_while_unfold : forall p lx,
  skip_while p lx =
  match lexer_peek lx with
  | Some ch =>
      if p ch then
        let '(lx', skipped) := skip_while p (lexer_advance lx) in (lx', skipped + 1)
      else (lx, 0)
  | None => (lx, 0)
  end.
Proof.
  intros p lx. unfold skip_while.
  fold (unread lx). fold (unread (lexer_advance lx)).
  rewrite lexer_peek_unread, unread_advance.
  destruct (unread lx) as [|c u]; cbn; auto.
  destruct (p c); auto.
  rewrite skip_while_loop_acc.
  destruct (skip_while_loop p u (lexer_advance lx) 0) as [a k]; cbn.
  f_equal; lia.
Qed.

(** * Prefixes *)

Fixpoint take_while (p : byte -> bool) (s : bytes) : bytes :=
  match s with
  | c :: r => if p c then c :: take_while p r else []
  | [] => []
  end.

Fixpoint drop_while (p : byte -> bool) (s : bytes) : bytes :=
  match s with
  | c :: r => if p c then drop_while p r else s
  | [] => []
  end.

Lemma take_drop_while : forall p s, take_while p s ++ drop_while p s = s.
Proof. induction s as [|c s IH]; cbn; auto. destruct (p c); cbn; congruence. Qed.

Lemma take_while_forall : forall p s, Forall (fun c => p c = true) (take_while p s).
Proof. induction s as [|c s IH]; cbn; auto. destruct (p c) eqn:E; auto. Qed.

Lemma drop_while_head : forall p s c r, drop_while p s = c :: r -> p c = false.
Proof.
  induction s as [|d s IH]; cbn; intros c r H; try discriminate.
  destruct (p d) eqn:E; eauto. inversion H; subst; auto.
Qed.

Lemma drop_while_length : forall p s, length (drop_while p s) <= length s.
Proof. induction s as [|c s IH]; cbn; auto. destruct (p c); cbn; lia. Qed.

Lemma skip_while_spec : forall p lx,
  let '(lx', skipped) := skip_while p lx in
  unread lx' = drop_while p (unread lx) /\
  stream lx' = stream lx /\
  skipped = length (take_while p (unread lx)) /\
  stream_position lx' = stream_position lx + skipped.
Proof.
  intros p lx. unfold skip_while. fold (unread lx).
  remember (unread lx) as u eqn:Hu.
  revert lx Hu. induction u as [|c u IH]; intros lx Hu; cbn.
  - repeat split; auto.
  - destruct (p c) eqn:E.
    + rewrite skip_while_loop_acc.
      specialize (IH (lexer_advance lx)).
      rewrite unread_advance, <- Hu in IH. specialize (IH eq_refl).
      destruct (skip_while_loop p u (lexer_advance lx) 0) as [lx' k] eqn:Hs; cbn in IH |- *.
      destruct IH as (H1 & H2 & H3 & H4). repeat split; auto; cbn; try lia.
    + cbn. repeat split; auto.
Qed.

(** The stream position never runs past the end of the stream, provided it
    starts there; needed for [slice_get]. *)
Definition lexer_ok (lx : lexer) : Prop := stream_position lx <= length (stream lx).

Lemma unread_length : forall lx, length (unread lx) = length (stream lx) - stream_position lx.
Proof. intros; unfold unread; apply skipn_length. Qed.

Lemma take_while_length : forall p s,
  length (take_while p s) + length (drop_while p s) = length s.
Proof.
  intros p s. rewrite <- (take_drop_while p s) at 3. rewrite app_length. reflexivity.
Qed.

Lemma skip_while_ok : forall p lx, lexer_ok lx -> lexer_ok (fst (skip_while p lx)).
Proof.
  intros p lx H. unfold lexer_ok in *.
  pose proof (skip_while_spec p lx) as Hs.
  destruct (skip_while p lx) as [lx' k]; cbn.
  destruct Hs as (H1 & H2 & H3 & H4).
  pose proof (take_while_length p (unread lx)). rewrite unread_length in H0.
  rewrite H2, H4. lia.
Qed.

Lemma slice_get_app : forall s start stop,
  start <= stop -> stop <= length s ->
  slice_get s start stop = Some (firstn (stop - start) (skipn start s)).
Proof.
  intros. unfold slice_get.
  rewrite (proj2 (Nat.leb_le start stop)), (proj2 (Nat.leb_le stop _)) by auto.
  reflexivity.
Qed.

(** * One token, as a function of the unread text *)

Definition next_tok (s : bytes) : option (bytes * bytes) :=
  let s1 := drop_while is_whitespace s in
  let s2 := match s1 with
            | c :: _ => if Ascii.eqb c "#" then drop_while (fun ch => negb (is_newline ch)) s1
                        else s1
            | [] => s1
            end in
  match s2 with
  | [] => None
  | c :: r =>
      if is_newline c then Some ([c], r)
      else
        let p := fun ch => negb (is_whitespace_or_newline ch || Ascii.eqb ch "#") in
        Some (take_while p s2, drop_while p s2)
  end.

Lemma firstn_take_while : forall p s,
  firstn (length (take_while p s)) s = take_while p s.
Proof. induction s as [|c s IH]; cbn; auto. destruct (p c); cbn; congruence. Qed.

Lemma skip_comment_spec : forall lx,
  let lx' := fst (skip_comment lx) in
  unread lx' = match unread lx with
               | c :: _ => if Ascii.eqb c "#"
                           then drop_while (fun ch => negb (is_newline ch)) (unread lx)
                           else unread lx
               | [] => unread lx
               end /\
  stream lx' = stream lx /\ (lexer_ok lx -> lexer_ok lx').
Proof.
  intros lx. unfold skip_comment. rewrite lexer_peek_unread.
  destruct (unread lx) as [|c u] eqn:E; cbn [hd_error fst]; auto.
  destruct (Ascii.eqb c "#") eqn:Ec; cbn [fst]; auto.
  unfold skip_unless.
  pose proof (skip_while_spec (fun ch => negb (is_newline ch)) lx) as Hs.
  pose proof (skip_while_ok (fun ch => negb (is_newline ch)) lx) as Ho.
  destruct (skip_while _ lx) as [lx' k]; cbn [fst] in *.
  destruct Hs as (H1 & H2 & H3 & H4). rewrite E in H1. auto.
Qed.

Lemma head_not_sep : forall s c r,
  drop_while is_whitespace s = c :: r -> Ascii.eqb c "#" = false -> is_newline c = false ->
  negb (is_whitespace_or_newline c || Ascii.eqb c "#") = true.
Proof.
  intros s c r H Hc Hn. apply drop_while_head in H.
  unfold is_whitespace_or_newline. rewrite H, Hn, Hc. reflexivity.
Qed.

Lemma lexer_next_token_spec : forall lx, lexer_ok lx ->
  match next_tok (unread lx) with
  | Some (t, r) => fst (lexer_next_token lx) = Some t /\ unread (snd (lexer_next_token lx)) = r
  | None => fst (lexer_next_token lx) = None /\ unread (snd (lexer_next_token lx)) = []
  end /\ lexer_ok (snd (lexer_next_token lx)).
Proof.
  intros lx Hok. unfold next_tok, lexer_next_token, skip_whitespace.
  pose proof (skip_while_spec is_whitespace lx) as Hs.
  pose proof (skip_while_ok is_whitespace lx Hok) as Ho.
  destruct (skip_while is_whitespace lx) as [lx1 k1]; cbn [fst] in *.
  destruct Hs as (H1 & H2 & H3 & H4). rewrite <- H1.
  pose proof (skip_comment_spec lx1) as (H5 & H6 & H7).
  specialize (H7 Ho).
  set (lx2 := fst (skip_comment lx1)) in *.
  rewrite <- H5.
  rewrite lexer_peek_unread.
  destruct (unread lx2) as [|c u] eqn:E2; cbn [hd_error].
  - cbn. auto.
  - assert (Hlen : length (c :: u) = length (stream lx2) - stream_position lx2)
      by (rewrite <- E2; apply unread_length).
    cbn [length] in Hlen.
    destruct (is_newline c) eqn:En.
    + cbn [fst snd].
      rewrite stream_advance, position_advance, slice_get_app by lia.
      fold (unread lx2). rewrite unread_advance.
      replace (stream_position lx2 + 1 - stream_position lx2) with 1 by lia.
      rewrite E2. cbn. repeat split; auto.
      unfold lexer_ok in *. rewrite stream_advance, position_advance. lia.
    + unfold skip_unless.
      set (p := fun ch => negb (is_whitespace_or_newline ch || Ascii.eqb ch "#")).
      pose proof (skip_while_spec p lx2) as Hs2.
      pose proof (skip_while_ok p lx2 H7) as Ho2.
      destruct (skip_while p lx2) as [lx3 k3]; cbn [fst] in Ho2.
      destruct Hs2 as (J1 & J2 & J3 & J4).
      rewrite E2 in J1, J3.
      assert (Hp : p c = true).
      { unfold p.
        destruct (unread lx1) as [|c1 u1] eqn:E1; [discriminate|].
        destruct (Ascii.eqb c1 "#") eqn:Ec1.
        - symmetry in H5. apply drop_while_head in H5.
          rewrite En in H5. discriminate.
        - inversion H5; subst c1 u1. symmetry in H1. eapply head_not_sep; eauto. }
      assert (Hk : 0 < k3) by (rewrite J3; cbn; rewrite Hp; cbn; lia).
      rewrite (proj2 (Nat.ltb_lt 0 k3) Hk). cbn [fst snd].
      unfold lexer_ok in Ho2.
      rewrite slice_get_app by lia.
      rewrite J2, J4. fold (unread lx2). rewrite E2.
      replace (stream_position lx2 + k3 - stream_position lx2) with k3 by lia.
      rewrite J3, firstn_take_while. repeat split; auto.
Qed.

(** * Boolean tests and the predicates of the specification *)

Lemma is_whitespace_spec : forall c, is_whitespace c = true <-> separator c.
Proof.
  intro c. unfold is_whitespace, separator.
  rewrite !orb_true_iff, !Ascii.eqb_eq. tauto.
Qed.

Lemma is_newline_spec : forall c, is_newline c = true <-> line_end c.
Proof.
  intro c. unfold is_newline, line_end. rewrite orb_true_iff, !Ascii.eqb_eq. tauto.
Qed.

Lemma is_word_spec : forall c,
  negb (is_whitespace_or_newline c || Ascii.eqb c "#") = true <-> word_byte c.
Proof.
  intro c. unfold is_whitespace_or_newline, word_byte.
  rewrite negb_true_iff, !orb_false_iff.
  rewrite <- is_whitespace_spec, <- is_newline_spec, <- Ascii.eqb_eq.
  destruct (is_whitespace c), (is_newline c), (Ascii.eqb c "#"); intuition congruence.
Qed.

Lemma not_newline_spec : forall c, negb (is_newline c) = true <-> ~ line_end c.
Proof.
  intro c. rewrite <- is_newline_spec. destruct (is_newline c); cbn; intuition congruence.
Qed.

Lemma separator_prefix : forall s ts,
  tokenizes (drop_while is_whitespace s) ts -> tokenizes s ts.
Proof.
  induction s as [|c s IH]; cbn; intros ts H; auto.
  destruct (is_whitespace c) eqn:E; auto.
  apply tk_separator; auto. now apply is_whitespace_spec.
Qed.

Lemma starts_with_drop : forall (p : byte -> bool) (P : byte -> Prop) s,
  (forall c, p c = false -> P c) -> starts_with P (drop_while p s).
Proof.
  intros p P s H. destruct (drop_while p s) as [|c r] eqn:E; cbn; auto.
  apply H. eapply drop_while_head; eauto.
Qed.

Lemma comment_prefix : forall s r ts,
  s = "#" :: r -> tokenizes (drop_while (fun ch => negb (is_newline ch)) s) ts -> tokenizes s ts.
Proof.
  intros s r ts -> H.
  cbn in H.
  rewrite <- (take_drop_while (fun ch => negb (is_newline ch)) r).
  apply tk_comment; auto.
  - eapply Forall_impl; [|apply take_while_forall]. intros a Ha.
    now apply not_newline_spec.
  - apply starts_with_drop. intros c Hc. apply is_newline_spec.
    destruct (is_newline c); auto; discriminate.
Qed.

Lemma next_tok_none : forall s, next_tok s = None -> tokenizes s [].
Proof.
  intros s H. unfold next_tok in H.
  apply separator_prefix.
  destruct (drop_while is_whitespace s) as [|c u] eqn:E; [constructor|].
  destruct (Ascii.eqb_spec c "#") as [->|Hc].
  - apply (comment_prefix _ u); auto.
    destruct (drop_while (fun ch => negb (is_newline ch)) ("#" :: u)) as [|c2 u2]; [constructor|].
    destruct (is_newline c2); discriminate.
  - destruct (is_newline c); discriminate.
Qed.

Lemma next_tok_some : forall s t r ts, next_tok s = Some (t, r) ->
  tokenizes r ts -> tokenizes s (t :: ts).
Proof.
  intros s t r ts H Hr. unfold next_tok in H.
  apply separator_prefix.
  destruct (drop_while is_whitespace s) as [|c u] eqn:E; [discriminate|].
  destruct (Ascii.eqb_spec c "#") as [->|Hc].
  - apply (comment_prefix _ u); auto.
    destruct (drop_while (fun ch => negb (is_newline ch)) ("#" :: u)) as [|c2 u2] eqn:E2; [discriminate|].
    pose proof (drop_while_head _ _ _ _ E2) as Hn.
    apply negb_false_iff in Hn. rewrite Hn in H. inversion H; subst.
    apply tk_line_end; auto. now apply is_newline_spec.
  - destruct (is_newline c) eqn:En.
    + inversion H; subst. apply tk_line_end; auto. now apply is_newline_spec.
    + set (p := fun ch => negb (is_whitespace_or_newline ch || Ascii.eqb ch "#")) in *.
      assert (Hp : p c = true).
      { eapply head_not_sep; eauto. now apply Ascii.eqb_neq. }
      rewrite <- (take_drop_while p (c :: u)).
      injection H as <- <-.
      change (if p c then c :: take_while p u else []) with (take_while p (c :: u)) in *.
      change (if p c then drop_while p u else c :: u) with (drop_while p (c :: u)) in *.
      apply tk_word; auto.
      * cbn. rewrite Hp. discriminate.
      * eapply Forall_impl; [|exact (take_while_forall p (c :: u))].
        intros a Ha. now apply is_word_spec.
      * apply starts_with_drop. intros a Ha Hw. apply is_word_spec in Hw.
        unfold p in Ha. congruence.
Qed.

Lemma next_tok_shorter : forall s t r, next_tok s = Some (t, r) -> length r < length s.
Proof.
  intros s t r H. unfold next_tok in H.
  pose proof (drop_while_length is_whitespace s) as H1.
  destruct (drop_while is_whitespace s) as [|c u] eqn:E; [discriminate|].
  destruct (Ascii.eqb_spec c "#") as [->|Hc].
  - pose proof (drop_while_length (fun ch => negb (is_newline ch)) ("#" :: u)) as H2.
    destruct (drop_while (fun ch => negb (is_newline ch)) ("#" :: u)) as [|c2 u2] eqn:E2; [discriminate|].
    pose proof (drop_while_head _ _ _ _ E2) as Hn.
    apply negb_false_iff in Hn. rewrite Hn in H. inversion H; subst.
    cbn [length] in *. lia.
  - destruct (is_newline c) eqn:En.
    + inversion H; subst. cbn [length] in *. lia.
    + set (p := fun ch => negb (is_whitespace_or_newline ch || Ascii.eqb ch "#")) in *.
      assert (Hp : p c = true).
      { eapply head_not_sep; eauto. now apply Ascii.eqb_neq. }
      inversion H; subst t r. cbn [drop_while]. rewrite Hp.
      pose proof (drop_while_length p u). cbn [length] in *. lia.
Qed.

(** * The token sequence as a function *)

Fixpoint lex_n (n : nat) (s : bytes) : list bytes :=
  match n with
  | 0 => []
  | S n' => match next_tok s with
            | Some (t, r) => t :: lex_n n' r
            | None => []
            end
  end.

Definition lex (s : bytes) : list bytes := lex_n (S (length s)) s.

Lemma lex_n_tokenizes : forall n s, length s < n -> tokenizes s (lex_n n s).
Proof.
  induction n as [|n IH]; intros s H; [lia|]. cbn.
  destruct (next_tok s) as [[t r]|] eqn:E.
  - eapply next_tok_some; eauto. apply IH. apply next_tok_shorter in E. lia.
  - now apply next_tok_none.
Qed.

Lemma lex_tokenizes : forall s, tokenizes s (lex s).
Proof. intro s. apply lex_n_tokenizes. lia. Qed.

(** [tokenizes] is a function: a state machine that reads one byte at a time. *)

Inductive mode := Gap | InWord (w : bytes) | InComment.

Definition flush (m : mode) : list bytes :=
  match m with InWord w => [w] | _ => [] end.

Definition extend (m : mode) (c : byte) : mode :=
  match m with InWord w => InWord (w ++ [c]) | _ => InWord [c] end.

Fixpoint scan (m : mode) (s : bytes) : list bytes :=
  match s with
  | [] => flush m
  | c :: r =>
      match m with
      | InComment => if is_newline c then [c] :: scan Gap r else scan InComment r
      | _ =>
          if is_whitespace c then flush m ++ scan Gap r
          else if is_newline c then flush m ++ [c] :: scan Gap r
          else if Ascii.eqb c "#" then flush m ++ scan InComment r
          else scan (extend m c) r
      end
  end.

Lemma not_word_cases : forall c, ~ word_byte c -> separator c \/ line_end c \/ c = "#".
Proof.
  intros c H. destruct (is_whitespace c) eqn:E1.
  { left; now apply is_whitespace_spec. }
  destruct (is_newline c) eqn:E2.
  { right; left; now apply is_newline_spec. }
  destruct (Ascii.eqb_spec c "#"); [auto|].
  exfalso; apply H. repeat split; auto.
  - rewrite <- is_whitespace_spec. congruence.
  - rewrite <- is_newline_spec. congruence.
Qed.

Lemma newline_not_ws : forall c, is_newline c = true -> is_whitespace c = false.
Proof.
  intros c H. apply is_newline_spec in H. destruct H as [->| ->]; reflexivity.
Qed.

Lemma scan_word_break : forall w s, starts_with (fun c => ~ word_byte c) s ->
  scan (InWord w) s = w :: scan Gap s.
Proof.
  intros w [|c s]; cbn; auto. intros H.
  destruct (not_word_cases c H) as [Hs|[Hs| ->]].
  - apply is_whitespace_spec in Hs. rewrite Hs. reflexivity.
  - apply is_newline_spec in Hs. rewrite (newline_not_ws c Hs), Hs. reflexivity.
  - reflexivity.
Qed.

Lemma word_byte_tests : forall c, word_byte c ->
  is_whitespace c = false /\ is_newline c = false /\ Ascii.eqb c "#" = false.
Proof.
  intros c H. apply is_word_spec in H. apply negb_true_iff in H.
  unfold is_whitespace_or_newline in H. rewrite !orb_false_iff in H. tauto.
Qed.

Lemma scan_word : forall w v s, Forall word_byte w ->
  scan (InWord v) (w ++ s) = scan (InWord (v ++ w)) s.
Proof.
  induction w as [|c w IH]; intros v s H; cbn; [now rewrite app_nil_r|].
  inversion H; subst. destruct (word_byte_tests c H2) as (-> & -> & ->).
  cbn. rewrite IH by auto. rewrite <- app_assoc. reflexivity.
Qed.

Lemma scan_comment : forall text s, Forall (fun c => ~ line_end c) text ->
  scan InComment (text ++ s) = scan InComment s.
Proof.
  induction text as [|c text IH]; intros s H; cbn; auto.
  inversion H; subst. apply not_newline_spec in H2. apply negb_true_iff in H2.
  rewrite H2. auto.
Qed.

Lemma scan_comment_break : forall s, starts_with line_end s -> scan InComment s = scan Gap s.
Proof.
  intros [|c s]; cbn; auto. intros H. apply is_newline_spec in H.
  rewrite H, (newline_not_ws c H). reflexivity.
Qed.

Lemma tokenizes_scan : forall s ts, tokenizes s ts -> ts = scan Gap s.
Proof.
  induction 1; cbn.
  - reflexivity.
  - apply is_whitespace_spec in H. rewrite H. auto.
  - apply is_newline_spec in H. rewrite H, (newline_not_ws c H). cbn. now f_equal.
  - rewrite scan_comment, scan_comment_break by auto. auto.
  - destruct w as [|c w]; [congruence|]. inversion H0; subst.
    destruct (word_byte_tests c H5) as (E1 & E2 & E3).
    cbn. rewrite E1, E2, E3. cbn. rewrite scan_word, scan_word_break by auto. reflexivity.
Qed.

Lemma tokenizes_iff : forall s ts, tokenizes s ts <-> ts = lex s.
Proof.
  intros s ts; split.
  - intros H. apply tokenizes_scan in H. rewrite H. symmetry.
    apply tokenizes_scan, lex_tokenizes.
  - intros ->. apply lex_tokenizes.
Qed.

Lemma lex_scan : forall s, lex s = scan Gap s.
Proof. intro s. apply tokenizes_scan, lex_tokenizes. Qed.

Lemma tokenizes_det : forall s ts ts', tokenizes s ts -> tokenizes s ts' -> ts = ts'.
Proof. intros s ts ts' H H'. apply tokenizes_iff in H, H'. congruence. Qed.

(** * Sizes and shape of tokens *)

Lemma tokenizes_length : forall s ts, tokenizes s ts -> length ts <= length s.
Proof.
  induction 1; cbn [length]; try lia.
  - rewrite app_length. unfold bytes, byte in *. lia.
  - rewrite app_length. destruct w; [congruence|]. cbn [length]. unfold bytes, byte in *. lia.
Qed.

Lemma lex_length : forall s, length (lex s) <= length s.
Proof. intro s. apply tokenizes_length, lex_tokenizes. Qed.

(** * UTF-8 *)

Lemma utf8_split : forall s, valid_utf8 s -> forall a b,
  s = a ++ b -> starts_with (byte_in 0 127) b -> valid_utf8 a /\ valid_utf8 b.
Proof.
  induction 1 as [|c s Hc Hs IH]; intros a b E Hb.
  - symmetry in E. apply app_eq_nil in E. destruct E; subst. split; constructor.
  - assert (Hcut : (exists a', a = c ++ a' /\ s = a' ++ b) \/ a = [] \/
                   (exists x y z, b = x :: y /\ In x (tl c) /\ z = x)).
    { clear IH Hs.
      assert (G : forall (c a : bytes), c ++ s = a ++ b ->
                (exists a', a = c ++ a' /\ s = a' ++ b) \/
                (exists c1 x c2, c = c1 ++ x :: c2 /\ a = c1 /\ exists y, b = x :: y)).
      { induction c0 as [|x c0 IHc]; intros a0 E0; cbn in E0.
        - left. exists a0. auto.
        - destruct a0 as [|y a0]; cbn in E0.
          + right. exists [], x, c0. repeat split; auto. destruct b; inversion E0; subst. eauto.
          + inversion E0; subst. destruct (IHc a0 H1) as [(a' & -> & ->)|(c1 & x & c2 & -> & -> & y0 & ->)].
            * left. exists a'. auto.
            * right. exists (y :: c1), x, c2. repeat split; eauto. }
      destruct (G c a E) as [?|(c1 & x & c2 & -> & -> & y & ->)]; auto.
      right. destruct c1 as [|d c1]; auto.
      right. exists x, y, x. repeat split. cbn. apply in_or_app. right. now left. }
    destruct Hcut as [(a' & -> & E')|[->|(x & y & z & -> & Hin & _)]].
    + destruct (IH a' b E' Hb). split; auto. now apply valid_char.
    + cbn in E. subst b. split; [constructor|]. now apply valid_char.
    + exfalso. cbn in Hb. unfold byte_in in *.
      destruct Hc; cbn in Hin; unfold byte_in in *;
        repeat (destruct Hin as [Hin|Hin]; [subst; lia|]); contradiction.
Qed.

Lemma utf8_ascii_head : forall c s, byte_in 0 127 c -> valid_utf8 (c :: s) -> valid_utf8 s.
Proof.
  intros c s Hc H. inversion H as [|ch r Hch Hr E]; subst.
  destruct Hch; cbn in E; inversion E; subst; auto; unfold byte_in in *; lia.
Qed.

Lemma separator_ascii : forall c, separator c -> byte_in 0 127 c.
Proof. intros c [->|[->| ->]]; unfold byte_in; cbn; lia. Qed.

Lemma line_end_ascii : forall c, line_end c -> byte_in 0 127 c.
Proof. intros c [->| ->]; unfold byte_in; cbn; lia. Qed.

Lemma hash_ascii : byte_in 0 127 "#".
Proof. unfold byte_in; cbn; lia. Qed.

Lemma tokenizes_utf8 : forall s ts, tokenizes s ts -> valid_utf8 s -> Forall valid_utf8 ts.
Proof.
  induction 1; intros Hv; auto.
  - apply IHtokenizes. eapply utf8_ascii_head; eauto using separator_ascii.
  - constructor.
    + rewrite <- (app_nil_r [c]). apply valid_char; [|constructor].
      apply utf8_1. now apply line_end_ascii.
    + apply IHtokenizes. eapply utf8_ascii_head; eauto using line_end_ascii.
  - apply utf8_ascii_head in Hv; [|apply hash_ascii].
    apply IHtokenizes. eapply utf8_split in Hv; [apply Hv|reflexivity|].
    destruct s; cbn in *; auto. now apply line_end_ascii.
  - eapply utf8_split in Hv; [|reflexivity|].
    + destruct Hv; auto.
    + destruct s; cbn in *; auto. destruct (not_word_cases a H1) as [Hs|[Hs| ->]];
        auto using separator_ascii, line_end_ascii, hash_ascii.
Qed.
