(** The number of tokens a parser asks for.

    [pays P c d m]: a call of [m] with [c] credits, in a state with [P] of the
    remaining tokens, leaves [d a] credits when it answers [a].  Each [peek] and
    each [next] takes a credit and each token that is used up brings [rate]. *)
From Verif Require Import ParserBase SourceProofs CountSpec.
Local Open Scope list_scope.

Notation clist := (counted list_source).

Definition rate : nat := 8.

Definition left_over (p : parser clist) : list bytes := fst (lexer_state p).

Definition potential (p : parser clist) : nat := calls p + rate * length (left_over p).

Definition pays {K A} (P : list bytes -> Prop) (c : nat) (d : A -> nat) (m : M clist K A) : Prop :=
  forall p, P (left_over p) ->
    potential (snd (m p)) + match fst (m p) with Ok a => d a | _ => 0 end <= potential p + c.

Definition any (_ : list bytes) : Prop := True.

Section Rules.
Context {K : Type}.

Lemma pays_ret : forall A P c (d : A -> nat) a, d a <= c -> pays (K := K) P c d (ret a).
Proof. intros A P c d a H p _. cbn. lia. Qed.

Lemma pays_fails : forall A P c (d : A -> nat) (m : M clist K A),
  (forall p, snd (m p) = p /\ forall a, fst (m p) <> Ok a) -> pays P c d m.
Proof.
  intros A P c d m H p _. destruct (H p) as [-> Hn]. destruct (fst (m p)); try lia.
  now elim (Hn a).
Qed.

Lemma pays_absurd : forall A (P : _ -> Prop) c (d : A -> nat) (m : M clist K A),
  (forall ts, ~ P ts) -> pays P c d m.
Proof. intros A P c d m H p Hp. elim (H _ Hp). Qed.

Lemma pays_error : forall A P c (d : A -> nat) k s, pays (K := K) P c d (error k s).
Proof. intros. apply pays_fails. split; auto. discriminate. Qed.

Lemma pays_panics : forall A P c (d : A -> nat) x, pays (K := K) P c d (panics x).
Proof. intros. apply pays_fails. split; auto. discriminate. Qed.

Lemma pays_diverge : forall A P c (d : A -> nat), pays (K := K) P c d diverge.
Proof. intros. apply pays_fails. split; auto. discriminate. Qed.

(** A call that takes [c0] of the [c] credits. *)
Lemma pays_bind : forall A B (m : M clist K A) (f : A -> M clist K B) (P : _ -> Prop) c0 d0 c e,
  pays P c0 d0 m -> c0 <= c ->
  (forall a, pays any (d0 a + (c - c0)) e (f a)) ->
  pays P c e (bind m f).
Proof.
  intros A B m f P c0 d0 c e Hm Hc Hf p Hp. specialize (Hm p Hp). unfold bind.
  destruct (m p) as [[a|x|x|] q]; cbn in *; try lia.
  specialize (Hf a q I). lia.
Qed.

Lemma pays_assoc : forall A B C (m : M clist K A) (f : A -> M clist K B) (g : B -> M clist K C) P c e,
  pays P c e (bind m (fun a => bind (f a) g)) -> pays P c e (bind (bind m f) g).
Proof.
  intros A B C m f g P c e H p Hp. specialize (H p Hp). revert H. unfold bind.
  destruct (m p) as [[a|x|x|] q]; auto.
Qed.

Lemma pays_ret_bind : forall A B (a : A) (f : A -> M clist K B) P c e,
  pays P c e (f a) -> pays P c e (bind (ret a) f).
Proof. intros A B a f P c e H p Hp. exact (H p Hp). Qed.

Lemma pays_weaken : forall A (m : M clist K A) (P Q : _ -> Prop) c c' d d',
  pays Q c d m -> (forall ts, P ts -> Q ts) -> c <= c' -> (forall a, d' a <= d a) -> pays P c' d' m.
Proof.
  intros A m P Q c c' d d' H HP Hc Hd p Hp. specialize (H p (HP _ Hp)).
  destruct (fst (m p)) as [a| | |]; try lia. specialize (Hd a). lia.
Qed.

(** Credits that a call does not need are kept. *)
Lemma pays_frame : forall A (m : M clist K A) (P : _ -> Prop) c d k,
  pays P c d m -> pays P (c + k) (fun a => d a + k) m.
Proof.
  intros A m P c d k H p Hp. specialize (H p Hp). destruct (fst (m p)); lia.
Qed.

Lemma pays_call : forall A (m : M clist K A) (P : _ -> Prop) c0 c d0 d,
  pays any c0 d0 m -> c0 <= c -> (forall a, d a <= d0 a + (c - c0)) -> pays P c d m.
Proof.
  intros A m P c0 c d0 d H Hc Hd p Hp. specialize (H p I).
  destruct (fst (m p)) as [a| | |]; try lia. specialize (Hd a). lia.
Qed.

Lemma pays_peek : forall B (f : option bytes -> M clist K B) (P : _ -> Prop) c e,
  1 <= c ->
  (forall t, pays (fun ts => P ts /\ hd_error ts = t) (c - 1) e (f t)) ->
  pays P c e (bind peek f).
Proof.
  intros B f P c e Hc Hf p Hp. unfold bind, peek; cbn.
  specialize (Hf (hd_error (left_over p)) (mkParser (S := clist) (line_number p)
    (fst (lexer_state p), 1 + snd (lexer_state p))) (conj Hp eq_refl)).
  unfold left_over in *. etransitivity; [exact Hf|]. unfold potential, calls, left_over; cbn. lia.
Qed.

Lemma pays_next : forall B (f : option bytes -> M clist K B) (P : _ -> Prop) c e,
  1 <= c ->
  (forall t, pays any (rate + c - 1) e (f (Some t))) ->
  (forall p, P (left_over p) -> left_over p = [] -> 
    potential (snd (f None p)) + match fst (f None p) with Ok a => e a | _ => 0 end
      <= potential p + (c - 1)) ->
  pays P c e (bind next f).
Proof.
  intros B f P c e Hc Hs Hn [line [ts n]] Hp. unfold bind, next; cbn in *.
  destruct ts as [|t ts]; cbn.
  - specialize (Hn (mkParser (S := clist) line ([], 1 + n)) Hp eq_refl). cbn in Hn.
    etransitivity; [exact Hn|]. unfold potential, calls, left_over; cbn. lia.
  - match goal with |- context [f (Some t) ?p] => specialize (Hs t p I) end.
    etransitivity; [exact Hs|]. unfold potential, calls, left_over; cbn. lia.
Qed.

Lemma pays_next_any : forall B (f : option bytes -> M clist K B) (P : _ -> Prop) c e,
  1 <= c ->
  (forall t, pays any (rate + c - 1) e (f (Some t))) ->
  pays any (c - 1) e (f None) ->
  pays P c e (bind next f).
Proof. intros. apply pays_next; auto. intros p _ _. apply (H1 p I). Qed.

(** [advance] after a token has been seen. *)
Lemma pays_advance : forall B (f : unit -> M clist K B) (P : _ -> Prop) c e,
  1 <= c -> (forall ts, P ts -> ts <> []) ->
  pays any (rate + c - 1) e (f tt) ->
  pays P c e (bind advance f).
Proof.
  intros B f P c e Hc Hp Hf. unfold advance. apply pays_assoc. apply pays_next; auto.
  intros p H1 H2. now elim (Hp _ H1).
Qed.

Lemma pays_catch : forall A (m : M clist K A) P c d,
  pays P c d m -> pays P c (fun r => match r with inl a => d a | inr _ => 0 end) (catch m).
Proof.
  intros A m P c d H p Hp. specialize (H p Hp). unfold catch.
  destruct (m p) as [[a|x|x|] q]; cbn in *; lia.
Qed.

Lemma pays_from_result : forall A P c (d : A -> nat) r, (forall a, d a <= c) ->
  pays (K := K) P c d (from_result r).
Proof.
  intros A P c d [a|x] H; [apply pays_ret; auto|]. apply pays_fails. split; auto. discriminate.
Qed.

Lemma pays_loop : forall A B (body : A -> M clist K (step A B)) fuel c (r : B -> nat),
  (forall a, pays any c (fun s => match s with Continue _ => c | Break b => r b end) (body a)) ->
  forall a P, pays P c r (loop fuel body a).
Proof.
  intros A B body fuel c r H. induction fuel as [|n IH]; intros a P; [apply pays_diverge|].
  cbn [loop]. eapply pays_bind; [eapply pays_weaken with (Q := any); [apply H|unfold any; auto|apply le_n|intro; apply le_n]|auto|].
  intros [a'|b]; cbn beta iota; [|apply pays_ret; lia].
  eapply pays_weaken; [apply IH with (P := any)|auto|lia|auto].
Qed.

Lemma pays_for_each : forall A X (body : A -> X -> M clist K A) c xs,
  (forall a x, pays any c (fun _ => c) (body a x)) ->
  forall a P, pays P c (fun _ => c) (for_each xs body a).
Proof.
  intros A X body c xs H. induction xs as [|x xs IH]; intros a P; [apply pays_ret; lia|].
  cbn [for_each]. eapply pays_bind; [eapply pays_weaken with (Q := any); [apply H|unfold any; auto|apply le_n|intro; apply le_n]|auto|]. cbn beta. intro a'. cbn beta.
  eapply pays_weaken; [apply IH with (P := any)|auto|lia|auto].
Qed.

(** Code that does not look at the tokens. *)
Lemma pays_index : forall A (v : list A) i P c, pays (K := K) P c (fun _ => c) (index v i).
Proof. intros. unfold index. destruct (nth_error v i); [apply pays_ret; lia|apply pays_panics]. Qed.

Lemma pays_len_minus : forall A dbg (v : list A) n P c, pays (K := K) P c (fun _ => c) (len_minus dbg v n).
Proof. intros. unfold len_minus. destruct (n <=? length v); [apply pays_ret; lia|apply pays_panics]. Qed.

Lemma pays_isize_sub : forall dbg a b P c, pays (K := K) P c (fun _ => c) (isize_sub dbg a b).
Proof.
  intros. unfold isize_sub. destruct (in_isize (a - b)); [apply pays_ret; lia|].
  destruct dbg; [apply pays_panics|apply pays_ret; lia].
Qed.

Lemma pays_debug_assert : forall dbg b P c, pays (K := K) P c (fun _ => c) (debug_assert dbg b).
Proof. intros. unfold debug_assert. destruct (dbg && negb b); [apply pays_panics|apply pays_ret; lia]. Qed.

(** The newlines: each is peeked at and used up. *)
Lemma pays_skip : forall fuel P, pays (K := K) P 2 (fun _ => 1) (skip_zero_or_more_newlines fuel).
Proof.
  intros fuel P. unfold skip_zero_or_more_newlines. apply pays_loop. intros [].
  apply pays_peek; auto. intro t. destruct (is_nl t) eqn:E; [|apply pays_ret; auto].
  apply pays_advance; auto.
  { intros [|x ts] [_ H]; [|discriminate]. subst t. discriminate. }
  apply pays_ret. unfold rate. lia.
Qed.

End Rules.

(** Walks through code with known costs of the calls in it. *)
Ltac credits := unfold rate in *; cbn beta iota in *; cbn [fst snd] in *; lia.

Create HintDb pay.
#[export] Hint Resolve pays_error pays_panics pays_diverge pays_skip : pay.

Ltac pay_step :=
  match goal with
  | |- pays _ _ _ (ret _) => apply pays_ret; credits
  | |- pays _ _ _ (error _ _) => apply pays_error
  | |- pays _ _ _ (panics _) => apply pays_panics
  | |- pays _ _ _ (from_result _) => apply pays_from_result; intros; credits
  | |- pays _ _ _ (bind (ret _) _) => apply pays_ret_bind
  | |- pays _ _ _ (bind (bind _ _) _) => apply pays_assoc
  | |- pays _ _ _ (bind peek _) => apply pays_peek; [credits|intro]
  | |- pays _ _ _ (bind next _) => apply pays_next_any; [credits|intro|]
  | |- pays _ _ _ (bind (catch _) _) =>
      eapply pays_bind; [apply pays_catch; solve [eauto with pay]|credits|intros [?|?]]
  | |- pays _ _ _ (bind (match ?x with _ => _ end) _) => destruct x
  | |- pays _ _ _ (bind _ _) =>
      eapply pays_bind; [solve [eauto with pay]|credits|intro]
  | |- pays _ _ _ (match ?x with _ => _ end) => destruct x
  | |- pays _ _ _ (if ?x then _ else _) => destruct x
  | |- pays _ _ _ (let _ := _ in _) => cbv zeta
  | |- pays _ _ _ _ => eapply pays_call; [solve [eauto with pay]|credits|intros; credits]
  end; cbn beta iota.

Ltac pays := repeat pay_step.

