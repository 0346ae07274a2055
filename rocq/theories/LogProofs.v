(** How often a parser asks for the same token.

    [lasts P c d x m]: a call of [m] in a state with [P] of the remaining tokens,
    when the next token may be asked for [c] times more, never asks for a token
    too often, and then the next token may be asked for [d a] times more if it
    answers [a], and [x] times more if it answers an error. *)
From Coq Require Import Lia.
From Verif Require Import ParserBase SourceProofs LogSpec.
Local Open Scope list_scope.

(** A list of places with the record of [logged]. *)
Definition llist : token_source :=
  mkTokenSource (list (bytes * nat) * list (bytes * nat))
    (fun s => match fst s with x :: _ => (Some (fst x), (fst s, x :: snd s)) | [] => (None, s) end)
    (fun s => match fst s with x :: r => (Some (fst x), (r, x :: snd s)) | [] => (None, s) end).

Definition places (p : parser llist) : list (bytes * nat) := fst (lexer_state p).
Definition remaining (p : parser llist) : list bytes := map fst (places p).
Definition record (p : parser llist) : list (bytes * nat) := rev (snd (lexer_state p)).

Definition any (_ : list bytes) : Prop := True.

Section Most.
Context (most : nat).

(** [used] have been answered as in [l]. *)
Definition gone (used l : list (bytes * nat)) : Prop := forall ts l', repeated most ts l' -> repeated most (used ++ ts) (l ++ l').

Definition asked (all : list (bytes * nat)) (p : parser llist) (j : nat) : Prop := exists used l,
  all = used ++ places p /\ gone used l /\
  record p = l ++ match places p with t :: _ => repeat t j | [] => [] end.

Definition lasts {K A} (P : list bytes -> Prop) (c : nat) (d : A -> nat) (x : nat) (m : M llist K A) : Prop :=
  forall all p j, P (remaining p) -> asked all p j -> j + c <= most ->
    exists j', asked all (snd (m p)) j' /\
      match fst (m p) with Ok a => j' + d a <= most | Err _ => j' + x <= most | _ => j' <= most end.

Lemma gone_none : gone [] [].
Proof. intros ts l H. exact H. Qed.

Lemma gone_token : forall used l t k, gone used l -> 1 <= k -> k <= most -> gone (used ++ [t]) (l ++ repeat t k).
Proof.
  intros used l t k H H1 H2 ts l' R. rewrite <- !app_assoc. apply H. cbn [app]. now apply repeated_token.
Qed.

Lemma asked_repeated : forall all p j, asked all p j -> j <= most -> repeated most all (record p).
Proof.
  intros all p j (used & l & -> & G & E) J. rewrite E. apply G. destruct (places p) as [|t ts]; [constructor|].
  destruct j as [|j]; [constructor|]. rewrite <- (app_nil_r (repeat t (S j))). apply repeated_token; [lia|exact J|constructor].
Qed.

Section Rules.
Context {K : Type}.

Lemma lasts_ret : forall A P c (d : A -> nat) x a, d a <= c -> lasts (K := K) P c d x (ret a).
Proof. intros A P c d x a H all p j _ Ha Hj. exists j. cbn. split; [exact Ha|lia]. Qed.

Lemma lasts_error : forall A P c (d : A -> nat) x k s, x <= c -> lasts (K := K) P c d x (error k s).
Proof. intros A P c d x k s H all p j _ Ha Hj. exists j. cbn. split; [exact Ha|lia]. Qed.

Lemma lasts_panics : forall A P c (d : A -> nat) x y, lasts (K := K) P c d x (panics y).
Proof. intros A P c d x y all p j _ Ha Hj. exists j. cbn. split; [exact Ha|lia]. Qed.

Lemma lasts_diverge : forall A P c (d : A -> nat) x, lasts (K := K) P c d x diverge.
Proof. intros A P c d x all p j _ Ha Hj. exists j. cbn. split; [exact Ha|lia]. Qed.

Lemma lasts_absurd : forall A (P : _ -> Prop) c (d : A -> nat) x (m : M llist K A), (forall ts, ~ P ts) -> lasts P c d x m.
Proof. intros A P c d x m H all p j Hp. elim (H _ Hp). Qed.

Lemma lasts_bind : forall A B (m : M llist K A) (f : A -> M llist K B) (P : _ -> Prop) c d e x,
  lasts P c d x m -> (forall a, lasts any (d a) e x (f a)) -> lasts P c e x (bind m f).
Proof.
  intros A B m f P c d e x Hm Hf all p j Hp Ha Hj. destruct (Hm all p j Hp Ha Hj) as (j' & Ha' & Hd). unfold bind.
  destruct (m p) as [[a|y|y|] q]; cbn [fst snd] in *; try (exists j'; auto; fail).
  exact (Hf a all q j' I Ha' Hd).
Qed.

Lemma lasts_assoc : forall A B C (m : M llist K A) (f : A -> M llist K B) (g : B -> M llist K C) P c e x,
  lasts P c e x (bind m (fun a => bind (f a) g)) -> lasts P c e x (bind (bind m f) g).
Proof.
  intros A B C m f g P c e x H all p j Hp Ha Hj. specialize (H all p j Hp Ha Hj). revert H. unfold bind.
  destruct (m p) as [[a|y|y|] q]; auto.
Qed.

Lemma lasts_ret_bind : forall A B (a : A) (f : A -> M llist K B) P c e x,
  lasts P c e x (f a) -> lasts P c e x (bind (ret a) f).
Proof. intros A B a f P c e x H. exact H. Qed.

Lemma lasts_weaken : forall A (m : M llist K A) (P Q : _ -> Prop) c c' d d' x x',
  lasts Q c d x m -> (forall ts, P ts -> Q ts) -> c <= c' -> (forall a, d' a <= d a) -> x' <= x -> lasts P c' d' x' m.
Proof.
  intros A m P Q c c' d d' x x' H HP Hc Hd Hx all p j Hp Ha Hj. destruct (H all p j (HP _ Hp) Ha ltac:(lia)) as (j' & Ha' & H').
  exists j'. split; [exact Ha'|]. destruct (fst (m p)) as [a| | |]; try lia. specialize (Hd a). lia.
Qed.

Lemma lasts_call : forall A (m : M llist K A) (P : _ -> Prop) c d d' x x',
  lasts any c d x m -> (forall a, d' a <= d a) -> x' <= x -> lasts P c d' x' m.
Proof. intros. eapply lasts_weaken; eauto. intros; exact I. Qed.

Lemma repeat_end : forall A (t : A) j, repeat t j ++ [t] = repeat t (S j).
Proof. induction j as [|j IH]; [reflexivity|]. cbn [repeat app] in *. now rewrite IH. Qed.

Lemma lasts_peek : forall B (f : option bytes -> M llist K B) (P : _ -> Prop) c e x,
  1 <= c ->
  (forall t, lasts (fun ts => P ts /\ hd_error ts = t) (c - 1) e x (f t)) ->
  lasts P c e x (bind peek f).
Proof.
  intros B f P c e x Hc Hf all [line [ts l]] j Hp Ha Hj. unfold bind, peek; cbn in *.
  destruct Ha as (used & l0 & E & G & L). unfold remaining, places, record in *. cbn in *.
  destruct ts as [|t ts]; cbn.
  - apply (Hf None) with (all := all) (j := j); cbn; auto; [|lia].
    exists used, l0. unfold places, record. cbn. auto.
  - apply (Hf (Some (fst t))) with (all := all) (j := S j); cbn; auto; [|lia].
    exists used, l0. unfold places, record. cbn [lexer_state fst snd rev]. split; [exact E|]. split; [exact G|].
    rewrite L, <- app_assoc. f_equal. apply repeat_end.
Qed.

(** A token that is used up makes place for the next one. *)
Lemma lasts_next : forall B (f : option bytes -> M llist K B) (P : _ -> Prop) c e x,
  1 <= c -> (forall t, lasts any most e x (f t)) -> lasts P c e x (bind next f).
Proof.
  intros B f P c e x Hc Hf all [line [ts l]] j Hp Ha Hj. unfold bind, next; cbn in *.
  destruct Ha as (used & l0 & E & G & L). unfold remaining, places, record in *. cbn in *.
  destruct ts as [|t ts]; cbn in *.
  - apply (Hf None) with (all := all) (j := 0); [exact I| |lia]. exists used, l0. unfold places, record; cbn. auto.
  - apply (Hf (Some (fst t))) with (all := all) (j := 0); [exact I| |lia].
    exists (used ++ [t]), (l0 ++ repeat t (S j)). unfold places, record; cbn [lexer_state fst snd].
    split; [rewrite E, <- app_assoc; reflexivity|]. split; [apply gone_token; auto; lia|].
    cbn [rev]. rewrite L, <- app_assoc, repeat_end. destruct ts; [now rewrite app_nil_r|]. cbn [repeat]. now rewrite app_nil_r.
Qed.

Lemma lasts_advance : forall B (f : unit -> M llist K B) (P : _ -> Prop) c e x,
  1 <= c -> lasts any most e x (f tt) -> lasts P c e x (bind advance f).
Proof. intros B f P c e x Hc Hf. unfold advance. apply lasts_assoc. apply lasts_next; auto. Qed.

Lemma lasts_catch : forall A (m : M llist K A) P c d x y,
  lasts P c d x m -> lasts P c (fun r => match r with inl a => d a | inr _ => x end) y (catch m).
Proof.
  intros A m P c d x y H all p j Hp Ha Hj. destruct (H all p j Hp Ha Hj) as (j' & Ha' & H'). exists j'. unfold catch.
  destruct (m p) as [[a|z|z|] q]; cbn [fst snd] in *; auto.
Qed.

Lemma lasts_from_result : forall A P c (d : A -> nat) x r, (forall a, d a <= c) -> x <= c ->
  lasts (K := K) P c d x (from_result r).
Proof.
  intros A P c d x [a|e] H Hx; [apply lasts_ret; auto|]. intros all p j _ Ha Hj. exists j. cbn. split; [exact Ha|lia].
Qed.

Lemma lasts_loop : forall A B (body : A -> M llist K (step A B)) fuel c (r : B -> nat) x,
  (forall a, lasts any c (fun s => match s with Continue _ => c | Break b => r b end) x (body a)) ->
  forall a P, lasts P c r x (loop fuel body a).
Proof.
  intros A B body fuel c r x H. induction fuel as [|n IH]; intros a P; [apply lasts_diverge|].
  cbn [loop]. eapply lasts_bind; [eapply lasts_call; [apply H|intro; apply le_n|apply le_n]|].
  intros [a'|b]; cbn beta iota; [apply IH|apply lasts_ret; lia].
Qed.

Lemma lasts_for_each : forall A X (body : A -> X -> M llist K A) c x xs,
  (forall a y, lasts any c (fun _ => c) x (body a y)) ->
  forall a P, lasts P c (fun _ => c) x (for_each xs body a).
Proof.
  intros A X body c x xs H. induction xs as [|y xs IH]; intros a P; [apply lasts_ret; lia|].
  cbn [for_each]. eapply lasts_bind; [eapply lasts_call; [apply H|intro; apply le_n|apply le_n]|]. cbn beta. intro a'. apply IH.
Qed.

(** Code that does not look at the tokens. *)
Lemma lasts_index : forall A (v : list A) i P c x, lasts (K := K) P c (fun _ => c) x (index v i).
Proof. intros. unfold index. destruct (nth_error v i); [apply lasts_ret; lia|apply lasts_panics]. Qed.

Lemma lasts_len_minus : forall A dbg (v : list A) n P c x, lasts (K := K) P c (fun _ => c) x (len_minus dbg v n).
Proof. intros. unfold len_minus. destruct (n <=? length v); [apply lasts_ret; lia|apply lasts_panics]. Qed.

Lemma lasts_isize_sub : forall dbg a b P c x, lasts (K := K) P c (fun _ => c) x (isize_sub dbg a b).
Proof.
  intros. unfold isize_sub. destruct (in_isize (a - b)); [apply lasts_ret; lia|].
  destruct dbg; [apply lasts_panics|apply lasts_ret; lia].
Qed.

Lemma lasts_debug_assert : forall dbg b P c x, lasts (K := K) P c (fun _ => c) x (debug_assert dbg b).
Proof. intros. unfold debug_assert. destruct (dbg && negb b); [apply lasts_panics|apply lasts_ret; lia]. Qed.

(** Newlines: the token behind them is asked for once. *)
Lemma lasts_skip : forall fuel P c x, 2 <= c -> c <= most -> lasts (K := K) P c (fun _ => c - 1) x (skip_zero_or_more_newlines fuel).
Proof.
  intros fuel P c x H Hc. unfold skip_zero_or_more_newlines. apply lasts_loop. intros [].
  apply lasts_peek; [lia|]. intro t. destruct (is_nl t); [|apply lasts_ret; lia].
  apply lasts_advance; [lia|]. apply lasts_ret. lia.
Qed.

End Rules.
End Most.

(** Walks through code with known calls in it. *)
Ltac counts := cbn beta iota in *; cbn [fst snd] in *; lia.

Create HintDb last.
#[export] Hint Resolve lasts_panics lasts_diverge lasts_skip lasts_index lasts_len_minus lasts_isize_sub lasts_debug_assert : last.
#[export] Hint Extern 1 (_ <= _) => counts : last.

Ltac last_step :=
  match goal with
  | |- lasts _ _ _ _ _ (ret _) => apply lasts_ret; counts
  | |- lasts _ _ _ _ _ (error _ _) => apply lasts_error; counts
  | |- lasts _ _ _ _ _ (panics _) => apply lasts_panics
  | |- lasts _ _ _ _ _ (from_result _) => apply lasts_from_result; [intros; counts|counts]
  | |- lasts _ _ _ _ _ (bind (ret _) _) => apply lasts_ret_bind
  | |- lasts _ _ _ _ _ (bind (bind _ _) _) => apply lasts_assoc
  | |- lasts _ _ _ _ _ (bind peek _) => apply lasts_peek; [counts|intro]
  | |- lasts _ _ _ _ _ (bind next _) => apply lasts_next; [counts|intro]
  | |- lasts _ _ _ _ _ (bind advance _) => apply lasts_advance; [counts|]
  | |- lasts _ _ _ _ _ (bind (catch _) _) =>
      eapply lasts_bind; [apply lasts_catch; solve [eauto with last]|intros [?|?]]
  | |- lasts _ _ _ _ _ (bind (match ?x with _ => _ end) _) => destruct x
  | |- lasts _ _ _ _ _ (bind _ _) =>
      eapply lasts_bind; [solve [eauto with last]|intro]
  | |- lasts _ _ _ _ _ (match ?x with _ => _ end) => destruct x
  | |- lasts _ _ _ _ _ (if ?x then _ else _) => destruct x
  | |- lasts _ _ _ _ _ (let _ := _ in _) => cbv zeta
  | |- lasts _ _ _ _ _ _ => eapply lasts_call; [solve [eauto with last]|intros; counts|counts]
  end; cbn beta iota.

Ltac lasts := repeat last_step.
