(** Proofs about NarrowLexerModel.v, as in UsizeProofs.v. *)
From Verif Require Import ObjModel UsizeModel SourceProofs LexerProofs UsizeProofs NarrowModel NarrowSpec NarrowProofs NarrowLexerModel.
From Coq Require Import Lia.
Local Open Scope list_scope.

Section Lexer.
Context (bits : Z) (Hb : (8 <= bits <= 64)%Z).

Lemma narrow_add_small : forall dbg a b, (Z.of_nat (a + b) <= largest_isize bits + 1)%Z ->
  narrow_word_add bits dbg a b = Some (a + b).
Proof.
  intros dbg a b H. unfold narrow_word_add. rewrite (proj2 (Z.leb_le _ _)); auto.
  unfold word_max. unfold largest_isize in H.
  replace bits with ((bits - 1) + 1)%Z by lia. rewrite Z.pow_add_r by lia.
  replace (bits - 1 + 1 - 1)%Z with (bits - 1)%Z in * by lia.
  assert (0 < 2 ^ (bits - 1))%Z by (apply Z.pow_pos_nonneg; lia). lia.
Qed.

Definition room (lx : lexer) : Prop := (Z.of_nat (length (stream lx)) <= largest_isize bits)%Z.

Lemma n_advance_word : forall dbg lx, (Z.of_nat (current_line_number lx) <= largest_isize bits)%Z ->
  (Z.of_nat (stream_position lx) <= largest_isize bits)%Z -> narrow_lexer_advance bits dbg lx = Some (lexer_advance lx).
Proof.
  intros dbg lx H1 H2. unfold narrow_lexer_advance, lexer_advance.
  rewrite (narrow_add_small dbg (stream_position lx)) by lia.
  destruct (lexer_peek lx) as [c|]; auto. destruct (is_newline c); auto.
  now rewrite narrow_add_small by lia.
Qed.

Definition nwithin (lx : lexer) : Prop :=
  stream_position lx <= length (stream lx) /\ current_line_number lx <= stream_position lx + 1 /\ room lx.

Lemma n_within_advance : forall lx c r, nwithin lx -> skipn (stream_position lx) (stream lx) = c :: r ->
  nwithin (lexer_advance lx) /\ skipn (stream_position (lexer_advance lx)) (stream (lexer_advance lx)) = r.
Proof.
  intros lx c r (H1 & H2 & H3) E. destruct (UsizeProofs.skipn_cons _ _ _ _ E) as (E1 & E2 & E3).
  unfold lexer_advance, lexer_peek. rewrite E3. unfold nwithin; cbn. split; auto.
  destruct (is_newline c); repeat split; auto; lia.
Qed.

Lemma n_skip_while_word : forall dbg f unread lx k, nwithin lx -> skipn (stream_position lx) (stream lx) = unread ->
  k <= stream_position lx ->
  narrow_skip_while_loop bits dbg f unread lx k = Some (skip_while_loop f unread lx k) /\ nwithin (fst (skip_while_loop f unread lx k)).
Proof.
  intros dbg f unread. induction unread as [|c u IH]; intros lx k Hw E Hk; cbn; auto.
  destruct (f c); cbn; auto.
  destruct (n_within_advance lx c u Hw E) as [Hw' E']. destruct Hw as (H1 & H2 & H3).
  destruct (UsizeProofs.skipn_cons _ _ _ _ E) as (_ & Hlt & _). unfold room in H3.
  rewrite n_advance_word by lia. rewrite narrow_add_small by lia. apply IH; auto.
  unfold lexer_advance; cbn. lia.
Qed.

Lemma n_skip_word : forall dbg f lx, nwithin lx ->
  narrow_skip_while bits dbg f lx = Some (skip_while f lx) /\ nwithin (fst (skip_while f lx)).
Proof. intros dbg f lx H. apply n_skip_while_word; auto. lia. Qed.

Lemma n_comment_word : forall dbg lx, nwithin lx ->
  narrow_skip_comment bits dbg lx = Some (skip_comment lx) /\ nwithin (fst (skip_comment lx)).
Proof.
  intros dbg lx H. unfold narrow_skip_comment, skip_comment. destruct (lexer_peek lx) as [c|]; auto.
  destruct (Ascii.eqb c "#"); auto. now apply n_skip_word.
Qed.

Lemma n_next_token_word : forall dbg lx, nwithin lx ->
  narrow_lexer_next_token bits dbg lx = Some (lexer_next_token lx) /\ nwithin (snd (lexer_next_token lx)).
Proof.
  intros dbg lx H. unfold narrow_lexer_next_token, lexer_next_token, skip_whitespace.
  destruct (n_skip_word dbg is_whitespace lx H) as [E1 W1]. rewrite E1.
  destruct (skip_while is_whitespace lx) as [lx1 k1]; cbn [fst] in *.
  destruct (n_comment_word dbg lx1 W1) as [E2 W2]. rewrite E2.
  destruct (skip_comment lx1) as [lx2 k2]; cbn [fst] in *.
  unfold lexer_peek. destruct (nth_error (stream lx2) (stream_position lx2)) as [c|] eqn:E; auto.
  assert (Eu : exists r, skipn (stream_position lx2) (stream lx2) = c :: r).
  { clear - E. revert E. generalize (stream_position lx2) as n. generalize (stream lx2) as s.
    induction s as [|x s IH]; intros [|n] E; cbn in *; try discriminate; eauto. injection E as ->. eauto. }
  destruct Eu as [r Eu].
  destruct (is_newline c).
  - destruct (UsizeProofs.skipn_cons _ _ _ _ Eu) as (_ & Hlt & _). destruct (n_within_advance _ _ _ W2 Eu) as [W3 _].
    destruct W2 as (H1 & H2 & H3). unfold room in H3. rewrite n_advance_word by lia. auto.
  - unfold narrow_skip_unless, skip_unless.
    set (g := fun ch : byte => negb (is_whitespace_or_newline ch || Ascii.eqb ch "#")).
    destruct (n_skip_word dbg g lx2 W2) as [E3 W3]. rewrite E3. destruct (skip_while g lx2) as [lx3 k3]; cbn [fst] in W3.
    destruct (0 <? k3); auto.
Qed.

Lemma n_peekable_peek_word : forall dbg p, nwithin (inner p) ->
  narrow_peekable_peek bits dbg p = Some (peekable_peek p) /\ nwithin (inner (snd (peekable_peek p))).
Proof.
  intros dbg [lx c] H. unfold narrow_peekable_peek, peekable_peek; cbn in *. destruct c as [t|]; auto.
  destruct (n_next_token_word dbg lx H) as [E W]. rewrite E. destruct (lexer_next_token lx); auto.
Qed.

Lemma n_peekable_next_word : forall dbg p, nwithin (inner p) ->
  narrow_peekable_next bits dbg p = Some (peekable_next p) /\ nwithin (inner (snd (peekable_next p))).
Proof.
  intros dbg [lx c] H. unfold narrow_peekable_next, peekable_next; cbn in *. destruct c as [t|]; auto.
  destruct (n_next_token_word dbg lx H) as [E W]. rewrite E. destruct (lexer_next_token lx); auto.
Qed.

Lemma narrow_calls : forall K dbg input p, (Z.of_nat (length input) <= largest_isize bits)%Z -> reached input p ->
  (forall t q, narrow_peek bits dbg p = Some (t, q) <-> peek (K := K) p = (Ok t, q)) /\
  (forall t q, narrow_next bits dbg p = Some (t, q) <-> next (K := K) p = (Ok t, q)).
Proof.
  intros K dbg input p Hf Hr. pose proof (narrow_fits bits input Hb Hf) as Hf'.
  destruct (reached_sound input p Hf' Hr) as (n & H1 & (W1 & W2 & _) & H3 & l & H4 & H5 & H6).
  assert (H2 : nwithin (inner (lexer_state p))).
  { split; auto. split; auto. unfold room. now rewrite H3. }
  rewrite peek_eq, next_eq. unfold narrow_peek, narrow_next.
  destruct (n_peekable_peek_word dbg _ H2) as [E1 _], (n_peekable_next_word dbg _ H2) as [E2 _]. rewrite E1, E2.
  split; intros t q.
  - destruct (peekable_peek (lexer_state p)); cbn. split; intro H; inversion H; auto.
  - destruct (pending_next _ _ H4) as [Ht _].
    destruct (peekable_next (lexer_state p)) as [[v|] s]; cbn in *.
    + assert (n <> 0) by (destruct l; [discriminate|]; cbn in H5; lia).
      destruct (bytes_eqb v nl); [rewrite narrow_add_small by lia|]; split; intro H'; inversion H'; auto.
    + split; intro H'; inversion H'; auto.
Qed.

End Lexer.
