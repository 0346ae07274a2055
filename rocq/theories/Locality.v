(** An error depends only on the lines up to the one it reports. *)
From Verif Require Import ObjModel MtlModel TokenSpec LexerProofs RelProofs SourceProofs ConsumeProofs
  TotalProofs TextProofs.
Local Open Scope list_scope.

Section Prefix.
Context (z1 z2 : list bytes).

(** The same tokens to come, up to different ends. *)
Definition same_front (a b : list bytes) : Prop := exists k, a = k ++ z1 /\ b = k ++ z2.

(** Everything before [z1] is used up. *)
Definition beyond (a : list bytes) : Prop := length a <= length z1.

Lemma front_peek : forall a b, same_front a b -> beyond a \/ (hd_error a = hd_error b /\ same_front a b).
Proof.
  intros a b (k & -> & ->). destruct k as [|t k].
  - left. apply Nat.le_refl.
  - right. split; auto. exists (t :: k). auto.
Qed.

Lemma front_next : forall a b, same_front a b -> beyond (tl a) \/ (hd_error a = hd_error b /\ same_front (tl a) (tl b)).
Proof.
  intros a b (k & -> & ->). destruct k as [|t k].
  - left. unfold beyond. destruct z1; cbn; lia.
  - right. split; auto. exists k. auto.
Qed.

Lemma beyond_next : forall a, beyond a -> beyond (tl a).
Proof. unfold beyond. intros [|t a] H; cbn in *; lia. Qed.

Lemma front_start : forall k, related (S1 := list_source) (S2 := list_source) same_front
  (list_parser 1 (k ++ z1)) (list_parser 1 (k ++ z2)).
Proof. intro k. split; auto. exists k. auto. Qed.

Lemma objset_front : forall dbg fuel k,
  beyond (lexer_state (snd (parse_objset dbg fuel (list_parser 1 (k ++ z1))))) \/
  parse_tokens dbg fuel (k ++ z1) = parse_tokens dbg fuel (k ++ z2).
Proof.
  intros dbg fuel k.
  destruct (rel_parse_objset (S1 := list_source) (S2 := list_source) same_front no_escape beyond
              fuel fuel dbg dbg front_peek front_next (fun a H => H) beyond_next
              (or_introl eq_refl) (or_introl eq_refl)) as [_ H].
  destruct (H _ _ (front_start k)) as [(x & [] & _)|[Hb|[He _]]]; auto.
Qed.

Lemma mtlset_front : forall fuel k,
  beyond (lexer_state (snd (parse_mtlset fuel (list_parser 1 (k ++ z1))))) \/
  mtl_parse_tokens fuel (k ++ z1) = mtl_parse_tokens fuel (k ++ z2).
Proof.
  intros fuel k.
  destruct (rel_parse_mtlset (S1 := list_source) (S2 := list_source) same_front no_escape beyond
              fuel fuel front_peek front_next (fun a H => H) beyond_next
              (or_introl eq_refl)) as [_ H].
  destruct (H _ _ (front_start k)) as [(x & [] & _)|[Hb|[He _]]]; auto.
Qed.

End Prefix.

(** A run that has used up a prefix has counted its newlines. *)
Lemma beyond_lines : forall K A k z C (r : outcome (parse_error K) A * parser list_source) e,
  consumed 1 (k ++ z) C r -> beyond z (lexer_state (snd r)) -> fst r = Err e ->
  S (count_nl k) <= err_line_number e.
Proof.
  intros K A k z C r e (pre & E & Hl & Hr) Hb He. rewrite He in Hr. rewrite Hr, Hl.
  assert (exists u, pre = k ++ u) as (u & ->).
  { exists (skipn (length k) pre).
    assert (length k <= length pre).
    { assert (L := f_equal (@length _) E). unfold beyond in Hb. rewrite !app_length in L. lia. }
    rewrite <- (firstn_skipn (length k) pre) at 1. f_equal.
    assert (F := f_equal (firstn (length k)) E).
    rewrite !firstn_app in F.
    replace (length k - length k) with 0 in F by lia.
    replace (length k - length pre) with 0 in F by lia.
    rewrite !firstn_O, !app_nil_r, firstn_all in F. auto. }
  rewrite count_nl_app. lia.
Qed.

Lemma lex_front : forall p z, lex (p ++ LF :: z) = (lex p ++ [nl]) ++ lex z.
Proof.
  intros p z. symmetry. apply tokenizes_iff. rewrite <- app_assoc.
  apply (tokenizes_newline p (lex p) z (lex z)); apply lex_tokenizes.
Qed.

Lemma front_count : forall p, S (count_nl (lex p ++ [nl])) = S (line_after p).
Proof.
  intro p. rewrite count_nl_app, (count_nl_line p (lex p) (lex_tokenizes p)). unfold line_after.
  replace (count_nl [nl]) with 1 by reflexivity. lia.
Qed.

Lemma parse_any_fuel : forall dbg input fuel, length input < fuel ->
  ObjModel.parse dbg input = parse_tokens dbg fuel (lex input).
Proof.
  intros dbg input fuel H. rewrite parse_lex. symmetry. unfold parse_tokens.
  assert (L := lex_length input).
  apply parse_objset_fuel; [unfold ObjModel.fuel_for; lia|].
  apply (parse_tokens_total dbg (ObjModel.fuel_for input) (lex input)). unfold ObjModel.fuel_for. lia.
Qed.

Lemma mtl_parse_any_fuel : forall input fuel, length input < fuel ->
  MtlModel.parse input = mtl_parse_tokens fuel (lex input).
Proof.
  intros input fuel H. rewrite mtl_parse_lex. symmetry. unfold mtl_parse_tokens.
  assert (L := lex_length input).
  apply parse_mtlset_fuel; [unfold MtlModel.fuel_for; lia|].
  apply (mtl_parse_tokens_total (MtlModel.fuel_for input) (lex input)). unfold MtlModel.fuel_for. lia.
Qed.

Theorem obj_error_local : forall dbg p z z' e,
  ObjModel.parse dbg (p ++ LF :: z) = Err e -> err_line_number e <= line_after p ->
  ObjModel.parse dbg (p ++ LF :: z') = Err e.
Proof.
  intros dbg p z z' e He Hl.
  set (fuel := S (length (p ++ LF :: z) + length (p ++ LF :: z'))).
  rewrite (parse_any_fuel dbg _ fuel) in He by (unfold fuel; lia).
  rewrite (parse_any_fuel dbg _ fuel) by (unfold fuel; lia).
  rewrite lex_front in *.
  destruct (objset_front (lex z) (lex z') dbg fuel (lex p ++ [nl])) as [Hb|<-]; auto.
  exfalso.
  assert (Hc : consumed 1 ((lex p ++ [nl]) ++ lex z) never
                 (parse_objset dbg fuel (list_parser 1 ((lex p ++ [nl]) ++ lex z)))).
  { apply (cons_parse_objset fuel dbg always); [|exact I].
    rewrite <- lex_front. assert (L := lex_length (p ++ LF :: z)). unfold fuel. lia. }
  assert (B := beyond_lines _ _ _ _ _ _ e Hc Hb He). rewrite front_count in B. lia.
Qed.

Theorem mtl_error_local : forall p z z' e,
  MtlModel.parse (p ++ LF :: z) = Err e -> err_line_number e <= line_after p ->
  MtlModel.parse (p ++ LF :: z') = Err e.
Proof.
  intros p z z' e He Hl.
  set (fuel := S (length (p ++ LF :: z) + length (p ++ LF :: z'))).
  rewrite (mtl_parse_any_fuel _ fuel) in He by (unfold fuel; lia).
  rewrite (mtl_parse_any_fuel _ fuel) by (unfold fuel; lia).
  rewrite lex_front in *.
  destruct (mtlset_front (lex z) (lex z') fuel (lex p ++ [nl])) as [Hb|<-]; auto.
  exfalso.
  assert (Hc : consumed 1 ((lex p ++ [nl]) ++ lex z) never
                 (parse_mtlset fuel (list_parser 1 ((lex p ++ [nl]) ++ lex z)))).
  { apply (cons_parse_mtlset fuel always); [|exact I].
    rewrite <- lex_front. assert (L := lex_length (p ++ LF :: z)). unfold fuel. lia. }
  assert (B := beyond_lines _ _ _ _ _ _ e Hc Hb He). rewrite front_count in B. lia.
Qed.
