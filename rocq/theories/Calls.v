(** The counting parser gives the answers of the parser, and its calls are
    linear in the number of tokens. *)
From Verif Require Import ObjModel MtlModel TokenSpec LexerProofs RelProofs SourceProofs CountSpec CostProofs.
From Verif Require ObjCost MtlCost.
Local Open Scope list_scope.

Notation clexer := (counted lexer_source).

(** Counting does not change the answers. *)
Definition same_source (s : ts_state clexer) (s' : ts_state lexer_source) : Prop := fst s = s'.

Lemma same_peek : forall a b, same_source a b ->
  fst (ts_peek clexer a) = fst (ts_peek lexer_source b) /\
  same_source (snd (ts_peek clexer a)) (snd (ts_peek lexer_source b)).
Proof. intros [a n] b <-. cbn. unfold same_source. destruct (peekable_peek a); auto. Qed.

Lemma same_next : forall a b, same_source a b ->
  fst (ts_next clexer a) = fst (ts_next lexer_source b) /\
  same_source (snd (ts_next clexer a)) (snd (ts_next lexer_source b)).
Proof. intros [a n] b <-. cbn. unfold same_source. destruct (peekable_next a); auto. Qed.

Lemma skip_while_stream : forall f u lx k, stream (fst (skip_while_loop f u lx k)) = stream lx.
Proof.
  induction u as [|c u IH]; intros lx k; cbn [skip_while_loop]; auto.
  destruct (f c); auto. rewrite IH. reflexivity.
Qed.

Lemma next_token_stream : forall lx, stream (snd (lexer_next_token lx)) = stream lx.
Proof.
  intro lx. unfold lexer_next_token.
  set (lx2 := fst (skip_comment (fst (skip_whitespace lx)))).
  assert (E : stream lx2 = stream lx).
  { unfold lx2. destruct (skip_comment_spec (fst (skip_whitespace lx))) as (_ & -> & _).
    apply skip_while_stream. }
  destruct (lexer_peek lx2) as [c|]; auto. destruct (is_newline c); auto.
  unfold skip_unless, skip_while.
  pose proof (skip_while_stream (fun ch => negb (is_whitespace_or_newline ch || Ascii.eqb ch "#"))
                (skipn (stream_position lx2) (stream lx2)) lx2 0) as K.
  destruct (skip_while_loop _ _ lx2 0) as [lx3 n]. cbn in K. destruct (0 <? n); cbn; congruence.
Qed.

(** The lexer goes over the text and is as good as the list of its tokens. *)
Section Text.
Context (input : bytes).

Definition counts (s : ts_state clexer) (l : ts_state clist) : Prop :=
  pending (fst s) (fst l) /\ snd s = snd l /\ stream (inner (fst s)) = input.

Lemma counts_peek : forall a b, counts a b ->
  fst (ts_peek clexer a) = fst (ts_peek clist b) /\ counts (snd (ts_peek clexer a)) (snd (ts_peek clist b)).
Proof.
  intros [a n] [l n'] (Hp & Hn & Hs). cbn in *. subst n'. destruct (pending_peek _ _ Hp) as [E Hp'].
  assert (Hs' : stream (inner (snd (peekable_peek a))) = input).
  { unfold peekable_peek. destruct (cache a); auto.
    pose proof (next_token_stream (inner a)) as K. destruct (lexer_next_token (inner a)). cbn in *. congruence. }
  destruct (peekable_peek a); cbn in *. split; auto. split; auto.
Qed.

Lemma counts_next : forall a b, counts a b ->
  fst (ts_next clexer a) = fst (ts_next clist b) /\ counts (snd (ts_next clexer a)) (snd (ts_next clist b)).
Proof.
  intros [a n] [l n'] (Hp & Hn & Hs). cbn in *. subst n'. destruct (pending_next _ _ Hp) as [E Hp'].
  assert (Hs' : stream (inner (snd (peekable_next a))) = input).
  { unfold peekable_next. destruct (cache a); auto.
    pose proof (next_token_stream (inner a)) as K. destruct (lexer_next_token (inner a)). cbn in *. congruence. }
  destruct (peekable_next a); cbn in *. split; auto. split; auto.
Qed.

End Text.

Lemma counted_obj : forall dbg input fuel,
  let run := parse_objset dbg fuel (counted_new input) in
  fst run = fst (parse_objset dbg fuel (parser_new input)) /\
  calls (snd run) <= 8 * length (lex input) + 9 /\ bytes_read (snd run) <= length input.
Proof.
  intros dbg input fuel run. split; [|].
  - destruct (sim_parse_objset (S1 := clexer) (S2 := lexer_source) same_source no_escape fuel fuel dbg dbg
                same_peek same_next (or_introl eq_refl) (or_introl eq_refl)
                (counted_new input) (parser_new input)) as [(x & [] & _)|[H _]]; auto.
    split; reflexivity.
  - set (lp := mkParser (S := clist) 1 (lex input, 0)).
    destruct (sim_parse_objset (S1 := clexer) (S2 := clist) (counts input) no_escape fuel fuel dbg dbg
                (counts_peek input) (counts_next input) (or_introl eq_refl) (or_introl eq_refl)
                (counted_new input) lp) as [(x & [] & _)|(_ & _ & Hp & Hn & Hs)].
    { split; [reflexivity|]. split; [apply pending_new|]. split; reflexivity. }
    fold run in Hp, Hn, Hs. split.
    + unfold calls at 1. rewrite Hn.
      pose proof (ObjCost.pays_objset dbg fuel any lp I) as K.
      unfold potential, calls, left_over, rate in K. cbn [lp lexer_state fst snd] in K. lia.
    + destruct Hp as [Hp _]. unfold lexer_ok in Hp. unfold bytes_read. rewrite Hs in Hp. exact Hp.
Qed.

Lemma counted_mtl : forall input fuel,
  let run := parse_mtlset fuel (counted_new input) in
  fst run = fst (parse_mtlset fuel (parser_new input)) /\
  calls (snd run) <= 8 * length (lex input) + 4 /\ bytes_read (snd run) <= length input.
Proof.
  intros input fuel run. split; [|].
  - destruct (sim_parse_mtlset (S1 := clexer) (S2 := lexer_source) same_source no_escape fuel fuel
                same_peek same_next (or_introl eq_refl)
                (counted_new input) (parser_new input)) as [(x & [] & _)|[H _]]; auto.
    split; reflexivity.
  - set (lp := mkParser (S := clist) 1 (lex input, 0)).
    destruct (sim_parse_mtlset (S1 := clexer) (S2 := clist) (counts input) no_escape fuel fuel
                (counts_peek input) (counts_next input) (or_introl eq_refl)
                (counted_new input) lp) as [(x & [] & _)|(_ & _ & Hp & Hn & Hs)].
    { split; [reflexivity|]. split; [apply pending_new|]. split; reflexivity. }
    fold run in Hp, Hn, Hs. split.
    + unfold calls at 1. rewrite Hn.
      pose proof (MtlCost.pays_mtlset fuel any lp I) as K.
      unfold potential, calls, left_over, rate in K. cbn [lp lexer_state fst snd] in K. lia.
    + destruct Hp as [Hp _]. unfold lexer_ok in Hp. unfold bytes_read. rewrite Hs in Hp. exact Hp.
Qed.

(** The same in terms of the tokens of the text. *)
Lemma obj_calls : forall dbg input ts, tokenizes input ts ->
  let run := parse_objset dbg (ObjModel.fuel_for input) (counted_new input) in
  fst run = ObjModel.parse dbg input /\
  calls (snd run) <= 8 * length ts + 9 /\ bytes_read (snd run) <= length input.
Proof.
  intros dbg input ts H run. rewrite (tokenizes_det _ _ _ H (lex_tokenizes input)). apply counted_obj.
Qed.

Lemma mtl_calls : forall input ts, tokenizes input ts ->
  let run := parse_mtlset (MtlModel.fuel_for input) (counted_new input) in
  fst run = MtlModel.parse input /\
  calls (snd run) <= 8 * length ts + 4 /\ bytes_read (snd run) <= length input.
Proof.
  intros input ts H run. rewrite (tokenizes_det _ _ _ H (lex_tokenizes input)). apply counted_mtl.
Qed.
