(** Proofs about texts that write the same numbers in different ways. *)
From Verif Require Import ObjModel RespellSpec ObjView LexerProofs ConsumeProofs ObjAccept ObjFile ObjUnique ObjTop ObjExtend ObjMore TopLines ObjSimulate.
Local Open Scope list_scope.

Lemma respelled_refl : forall ts, respelled ts ts.
Proof.
  intros ts.
  assert (H : forall n l, length l <= n -> respelled l l).
  { induction n as [|n IH]; intros l Hl.
    - destruct l; [|cbn in Hl; lia]. apply respelled_last, line_same. intros [].
    - destruct (in_dec (list_eq_dec ascii_dec) nl l) as [K|K]; [|now apply respelled_last, line_same].
      assert (S : exists a b, l = a ++ nl :: b /\ ~ In nl a).
      { clear -K. induction l as [|t l IH]; [destruct K|]. destruct (list_eq_dec ascii_dec t nl) as [->|E].
        - exists [], l. split; [reflexivity|intros []].
        - destruct K as [K|K]; [now destruct E|]. destruct (IH K) as (a & b & -> & N). exists (t :: a), b.
          split; [reflexivity|]. intros [M|M]; [now destruct E|now apply N]. }
      destruct S as (a & b & -> & N). apply respelled_more; [now apply line_same|].
      apply IH. rewrite app_length in Hl. cbn in Hl. lia. }
  apply (H (length ts)). lia.
Qed.

(** The end of a line, and what follows. *)
Definition tails (b b' : list bytes) : Prop :=
  (b = [] /\ b' = []) \/ exists u u', b = nl :: u /\ b' = nl :: u' /\ respelled u u'.

Lemma tails_respelled : forall b b', tails b b' -> respelled b b'.
Proof.
  intros b b' [[-> ->]|(u & u' & -> & -> & H)].
  - apply respelled_refl.
  - apply (respelled_more [] []); [|exact H]. apply line_same. intros [].
Qed.

Lemma respelled_cases : forall ts ts', respelled ts ts' ->
  exists l l' b b', ts = l ++ b /\ ts' = l' ++ b' /\ respelled_line l l' /\ tails b b'.
Proof.
  intros ts ts' H. destruct H as [l l' H|l l' ts ts' H K].
  - exists l, l', [], []. rewrite !app_nil_r. repeat split; auto. now left.
  - exists l, l', (nl :: ts), (nl :: ts'). repeat split; auto. right. eauto.
Qed.

Lemma number_not_nl : forall A (read : bytes -> option A) t t', read nl = None -> same_number read t t' -> t <> nl /\ t' <> nl.
Proof. intros A read t t' H (x & K & K'). split; intros ->; congruence. Qed.

Lemma reference_not_nl : forall t t', same_reference t t' -> t <> nl /\ t' <> nl.
Proof.
  intros t t' (ps & ps' & H & H' & K). apply parts_split in H, H'.
  assert (S : split_on "/"%char nl = [nl]) by reflexivity.
  split; intros ->.
  - rewrite S in H. subst ps. inversion K as [|p p' ? ? P ? E]; subst. destruct P as [[P _]|(x & P & _)]; [discriminate P|].
    vm_compute in P. discriminate.
  - rewrite S in H'. subst ps'. inversion K as [|p p' ? ? P ? E]; subst. destruct P as [[_ P]|(x & _ & P)]; [discriminate P|].
    vm_compute in P. discriminate.
Qed.

Lemma Forall2_no_nl : forall (R : bytes -> bytes -> Prop) xs ys, (forall t t', R t t' -> t <> nl /\ t' <> nl) -> Forall2 R xs ys ->
  ~ In nl xs /\ ~ In nl ys.
Proof.
  intros R xs ys HR H. induction H as [|t t' xs ys H K [IH IH']]; [auto|]. apply HR in H. destruct H as [H H'].
  split; intros [E|E]; auto.
Qed.

Lemma floats_no_nl : forall xs ys, Forall2 same_float xs ys -> ~ In nl xs /\ ~ In nl ys.
Proof. intros xs ys. apply Forall2_no_nl. intros t t'. now apply number_not_nl. Qed.
Lemma integers_no_nl : forall xs ys, Forall2 same_integer xs ys -> ~ In nl xs /\ ~ In nl ys.
Proof. intros xs ys. apply Forall2_no_nl. intros t t'. now apply number_not_nl. Qed.
Lemma references_no_nl : forall xs ys, Forall2 same_reference xs ys -> ~ In nl xs /\ ~ In nl ys.
Proof. intros xs ys. apply Forall2_no_nl. exact reference_not_nl. Qed.

Lemma respelled_line_no_nl : forall l l', respelled_line l l' -> ~ In nl l /\ ~ In nl l'.
Proof.
  assert (C : forall w xs, w <> nl -> ~ In nl xs -> ~ In nl (w :: xs)) by (intros w xs A B [E|E]; auto).
  intros l l' H. destruct H as [l H|xs ys _ H|xs ys _ H|xs ys _ H|xs ys H|xs ys H|xs ys H|t t' H]; auto.
  1-3: destruct (floats_no_nl _ _ H); split; apply C; auto; discriminate.
  - destruct (integers_no_nl _ _ H); split; apply C; auto; discriminate.
  - destruct (references_no_nl _ _ H); split; apply C; auto; discriminate.
  - destruct (references_no_nl _ _ H); split; apply C; auto; discriminate.
  - apply number_not_nl in H; [|reflexivity]. destruct H. split; apply C; try discriminate; intros [E|[]]; auto.
Qed.

Lemma respelled_count : forall ts ts', respelled ts ts' -> count_nl ts = count_nl ts'.
Proof.
  intros ts ts' H. induction H as [l l' H|l l' ts ts' H K IH].
  - destruct (respelled_line_no_nl _ _ H). now rewrite !count_nl_none.
  - destruct (respelled_line_no_nl _ _ H). unfold count_nl in *. rewrite !filter_app, !app_length. cbn [filter].
    fold (count_nl l) (count_nl l'). rewrite !count_nl_none by auto. rewrite bytes_eqb_refl. cbn [length]. lia.
Qed.

(** * Places in the two texts

    Either both are followed by lines with the same numbers, or by a word that is
    not the beginning of a statement. *)
Definition lost (t : bytes) : Prop := ~ In t keywords /\ t <> nl /\ t <> lit "o".
Definition stuck (ts ts' : list bytes) : Prop :=
  exists t r t' r', ts = t :: r /\ ts' = t' :: r' /\ lost t /\ lost t' /\ count_nl r = count_nl r'.
Definition place (ts ts' : list bytes) : Prop := respelled ts ts' \/ stuck ts ts'.

Lemma count_nl_cons : forall t r, t <> nl -> count_nl (t :: r) = count_nl r.
Proof. intros t r H. change (t :: r) with ([t] ++ r). rewrite count_nl_app. rewrite count_nl_none; [reflexivity|]. intros [E|[]]. auto. Qed.

Lemma place_count : forall ts ts', place ts ts' -> count_nl ts = count_nl ts'.
Proof.
  intros ts ts' [H|(t & r & t' & r' & -> & -> & (_ & N & _) & (_ & N' & _) & E)]; [now apply respelled_count|].
  now rewrite !count_nl_cons.
Qed.

Lemma number_lost : forall t t', same_reference t t' -> lost t /\ lost t'.
Proof.
  assert (P : forall t ps, parts_of t ps -> forall Q : bytes -> Prop, Forall Q ps -> ~ In "/"%char t -> Q t).
  { intros t ps H Q F N. assert (ps = [t]) as ->.
    { apply parts_split in H. subst ps. clear F. induction t as [|c t IH]; [reflexivity|]. cbn in *.
      destruct (Ascii.eqb c "/") eqn:E; [apply Ascii.eqb_eq in E; subst; exfalso; auto|]. rewrite IH by auto. reflexivity. }
    now inversion F. }
  assert (G : forall t ps, parts_of t ps -> Forall (fun p => p = [] \/ RustStd.parse_isize p <> None) ps -> lost t).
  { intros t ps H F. pose proof (P t ps H _ F) as Q. split; [|split].
    - intros K. cbn in K. repeat destruct K as [<-|K]; try contradiction;
        (destruct Q as [Q|Q]; [intros M; vm_compute in M; intuition discriminate|discriminate Q|now apply Q]).
    - intros ->. destruct Q as [Q|Q]; [intros M; vm_compute in M; intuition discriminate|discriminate Q|now apply Q].
    - intros ->. destruct Q as [Q|Q]; [intros M; vm_compute in M; intuition discriminate|discriminate Q|now apply Q]. }
  intros t t' (ps & ps' & H & H' & K). split.
  - apply (G t ps H). clear H H'. induction K as [|p p' ps ps' S K IH]; constructor; auto.
    destruct S as [[S _]|(x & S & _)]; [now left|right; congruence].
  - apply (G t' ps' H'). clear H H'. induction K as [|p p' ps ps' S K IH]; constructor; auto.
    destruct S as [[_ S]|(x & _ & S)]; [now left|right; congruence].
Qed.

(** * References *)

Lemma same_number_sym : forall A (read : bytes -> option A) t t', same_number read t t' -> same_number read t' t.
Proof. intros A read t t' (x & H & K). now exists x. Qed.

Lemma same_part_sym : forall p p', same_part p p' -> same_part p' p.
Proof. intros p p' [[H K]|H]; [now left|right; now apply same_number_sym]. Qed.

Lemma Forall2_sym : forall A (R S : A -> A -> Prop) xs ys, (forall x y, R x y -> S y x) -> Forall2 R xs ys -> Forall2 S ys xs.
Proof. intros A R S xs ys H K. induction K; constructor; auto. Qed.

Lemma same_reference_sym : forall t t', same_reference t t' -> same_reference t' t.
Proof.
  intros t t' (ps & ps' & H & H' & K). exists ps', ps. repeat split; auto; try apply H; try apply H'.
  eapply Forall2_sym; [|exact K]. exact same_part_sym.
Qed.

Lemma same_number_token : forall p p' k, same_integer p p' -> number_token p k -> number_token p' k.
Proof. intros p p' k (x & H & K) N. unfold number_token in *. congruence. Qed.

Lemma number_some : forall p k, number_token p k -> p <> [].
Proof. intros p k H ->. discriminate H. Qed.

Lemma same_part_number : forall p p' k, same_part p p' -> number_token p k -> number_token p' k.
Proof.
  intros p p' k [[-> _]|H] N; [now apply number_some in N|]. eapply same_number_token; eauto.
Qed.

Lemma same_part_token : forall p p' k, same_part p p' -> part_token p k -> part_token p' k.
Proof.
  intros p p' k S H. destruct H as [|p k H].
  - destruct S as [[_ ->]|(x & K & _)]; [constructor|discriminate K].
  - apply part_number. eapply same_part_number; eauto.
Qed.

Lemma same_valid : forall base now t t' r, same_reference t t' -> valid_ref base now t r -> valid_ref base now t' r.
Proof.
  intros base now t t' r (ps & ps' & H & H' & K) [V S]. split; [|exact S]. apply parts_split in H, H'.
  apply ref_token_split in V. apply ref_token_split. rewrite <- H in V. rewrite <- H'. clear H H'.
  destruct K as [|a a' ? ? Ka K]; [destruct V|].
  destruct K as [|b b' ? ? Kb K].
  { destruct V as (v & V & ->). exists v. split; auto. eapply same_part_number; eauto. }
  destruct K as [|c c' ? ? Kc K].
  { destruct V as (v & vt & V & V' & ->). exists v, vt. repeat split; auto; [eapply same_part_number|eapply same_part_token]; eauto. }
  destruct K as [|d d' ? ? Kd K]; [|destruct V].
  destruct V as (v & vt & vn & V & V' & V'' & ->). exists v, vt, vn.
  repeat split; auto; [eapply same_part_number|eapply same_part_token|eapply same_part_token]; eauto.
Qed.

Lemma same_valid_not : forall base now t t', same_reference t t' ->
  (forall r, ~ valid_ref base now t r) -> forall r, ~ valid_ref base now t' r.
Proof. intros base now t t' S H r V. apply (H r). eapply same_valid; [|exact V]. now apply same_reference_sym. Qed.

(** An error of the same kind. *)
Definition alike (c c' : complaint) : Prop := fst c = fst c'.

Lemma same_bad_number : forall base now p p' c, same_integer p p' -> bad_number base now p c ->
  bad_number base now p' c.
Proof.
  intros base now p p' c (x & H & K) B. destruct B as [p B|p z B Bz]; [congruence|].
  replace z with x in * by congruence. now apply number_out.
Qed.

Lemma same_bad_part : forall base now p p' c, same_part p p' -> bad_part base now p c -> bad_part base now p' c.
Proof.
  intros base now p p' c [[-> _]|H] [N B]; [now destruct N|]. split.
  - destruct H as (x & _ & K). intros ->. discriminate K.
  - eapply same_bad_number; eauto.
Qed.

Lemma same_good_part : forall base now p p', same_part p p' -> good_part base now p -> good_part base now p'.
Proof. intros base now p p' H (k & K & S). exists k. split; auto. eapply same_part_token; eauto. Qed.

Lemma same_low : forall now p p', same_part p p' -> too_low now p -> too_low now p'.
Proof.
  intros now p p' S (z & H & K). exists z. split; auto. destruct S as [[-> _]|(x & S & S')]; [discriminate H|congruence].
Qed.

Ltac next_pieces :=
  repeat match goal with
  | H : Forall2 same_part (_ :: _) _ |- _ => inversion H; subst; clear H
  end.

Lemma same_bad_ref : forall base now t t' c, same_reference t t' -> bad_ref base now t c ->
  exists c', bad_ref base now t' c' /\ alike c c'.
Proof.
  intros base now t t' c (ps & ps' & H & H' & K) B.
  assert (U : forall qs, parts_of t qs -> qs = ps) by (intros qs Q; apply parts_split in Q, H; congruence).
  destruct B as [p qs c Q B|p q qs c Q G B|p q r qs c Q G G' B|qs Q G G'|p q r s qs Q G G' G''];
    apply U in Q; subst ps; next_pieces.
  - exists c. split; [|reflexivity]. eapply bad_ref_v; [exact H'|]. eapply same_bad_part; eauto.
  - exists c. split; [|reflexivity]. eapply bad_ref_t; [exact H'|..].
    + eapply same_good_part; eauto.
    + eapply same_bad_part; eauto.
  - exists c. split; [|reflexivity]. eapply bad_ref_n; [exact H'|..].
    + eapply same_good_part; eauto.
    + eapply same_good_part; eauto.
    + eapply same_bad_part; eauto.
  - exists (ExpectedVTNIndex, msg_vtn t'). split; [|reflexivity].
    match goal with S : same_part [] _ |- _ => destruct S as [[_ ->]|(x & S & _)]; [|discriminate S] end.
    eapply bad_ref_empty; [exact H'|..].
    + intros q ps' ->. match goal with F : Forall2 same_part _ _ |- _ => inversion F; subst end.
      eapply same_good_part; [eassumption|]. eapply G. reflexivity.
    + intros q r ps' ->. match goal with F : Forall2 same_part _ (_ :: _ :: _) |- _ => inversion F as [|x0 ? qs0 ? S1 F']; subst end.
      inversion F' as [|x1 ? ? ? S2 F'']; subst.
      eapply same_good_part; [eassumption|]. eapply G'. reflexivity.
  - exists (ExpectedVTNIndex, msg_vtn t'). split; [|reflexivity].
    eapply bad_ref_many; [exact H'|..]; eapply same_good_part; eauto.
Qed.

Lemma same_ref_low : forall base now t t', same_reference t t' -> ref_too_low base now t -> ref_too_low base now t'.
Proof.
  intros base now t t' (ps & ps' & H & H' & K) B.
  assert (U : forall qs, parts_of t qs -> qs = ps) by (intros qs Q; apply parts_split in Q, H; congruence).
  destruct B as [p qs Q B|p q qs Q G B|p q r qs Q G G' B]; apply U in Q; subst ps; next_pieces.
  - eapply low_v; [exact H'|]. eapply same_low; eauto.
  - eapply low_t; [exact H'|..]; [eapply same_good_part|eapply same_low]; eauto.
  - eapply low_n; [exact H'|..]; [eapply same_good_part|eapply same_good_part|eapply same_low]; eauto.
Qed.

(** * What comes after the line *)

Section After.
Context (u u' : list bytes).

Definition moves {A} (R : list bytes -> A -> list bytes -> Prop) (a : list bytes) (x : A) (rest : list bytes) : Prop :=
  (exists a', rest = a' ++ nl :: u /\ R (a ++ nl :: u') x (a' ++ nl :: u')) \/
  (rest = u /\ R (a ++ nl :: u') x u').

Lemma optional_moves : forall d a x rest, reads_optional d (a ++ nl :: u) x rest ->
  exists a', rest = a' ++ nl :: u /\ reads_optional d (a ++ nl :: u') x (a' ++ nl :: u').
Proof.
  intros d a x rest H. destruct a as [|t a]; cbn in *; inversion H; subst.
  - exfalso. eapply nl_not_float; eauto.
  - exists []. split; auto. now apply optional_other.
  - exists a. split; auto. now apply optional_given.
  - exists (t :: a). split; auto. now apply optional_other.
Qed.

Lemma line_moves : forall a names rest, reads_line (a ++ nl :: u) names rest -> moves reads_line a names rest.
Proof.
  intros a names rest H. inversion H as [? Hn|? ? Hn E]; subst.
  - exfalso. apply Hn. apply in_or_app. right. now left.
  - destruct (split_nl _ _ _ _ Hn E) as (a' & -> & E'). destruct a' as [|t a']; cbn in E'; inversion E'; subst.
    + right. split; auto. rewrite app_nil_r. now apply line_nl.
    + left. exists a'. split; auto. rewrite <- app_assoc. cbn. now apply line_nl.
Qed.

Lemma refs_moves : forall base now a rs rest, reads_refs base now (a ++ nl :: u) rs rest ->
  moves (reads_refs base now) a rs rest.
Proof.
  intros base now a. induction a as [|t a IH]; intros rs rest H; cbn in *; inversion H; subst.
  - right. split; auto. apply refs_stop. apply nl_not_ref.
  - exfalso. eapply nl_not_ref; eauto.
  - left. exists a. split; auto. now apply refs_stop.
  - match goal with K : reads_refs _ _ (a ++ _) _ _ |- _ => destruct (IH _ _ K) as [(a' & -> & K')|(-> & K')] end.
    + left. exists a'. split; auto. now apply refs_more.
    + right. split; auto. now apply refs_more.
Qed.

Lemma statement_moves : forall base now a s rest, reads_statement base now (a ++ nl :: u) s rest ->
  moves (reads_statement base now) a s rest.
Proof.
  intros base now a s rest H.
  remember (a ++ nl :: u) as ts eqn:E. destruct H.
  - destruct (split_nl u [lit "v"; tx; ty; tz] ts a) as (a' & -> & ->); [not_nl|exact E|].
    destruct (optional_moves _ _ _ _ H2) as (a'' & -> & K). left. exists a''. split; auto. now apply reads_v.
  - destruct (split_nl u [lit "vt"; tu] ts a) as (a' & -> & ->); [not_nl|exact E|].
    destruct (optional_moves _ _ _ _ H0) as (a'' & -> & K).
    destruct (optional_moves _ _ _ _ H1) as (a3 & -> & K'). left. exists a3. split; auto. cbn. eapply reads_vt; eauto.
  - destruct (split_nl u [lit "vn"; tx; ty; tz] rest a) as (a' & -> & ->); [not_nl|exact E|].
    left. exists a'. split; auto. now apply reads_vn.
  - destruct (split_nl u [lit "g"] ts a) as (a' & -> & ->); [not_nl|exact E|].
    destruct (line_moves _ _ _ H) as [(a'' & -> & K)|(-> & K)]; [left; exists a''|right]; (split; [auto|now apply reads_g]).
  - destruct (split_nl u [lit "s"; t] rest a) as (a' & -> & ->); [not_nl|exact E|].
    left. exists a'. split; auto. now apply reads_s.
  - destruct (split_nl u [lit "usemtl"] (name :: rest) a) as (a' & -> & E'); [not_nl|exact E|].
    destruct a' as [|t a']; cbn in E'; inversion E'; subst.
    + right. split; auto. apply reads_usemtl.
    + left. exists a'. split; auto. apply reads_usemtl.
  - destruct (split_nl u [lit "p"] ts a) as (a' & -> & ->); [not_nl|exact E|].
    destruct (line_moves _ _ _ H) as [(a'' & -> & K)|(-> & K)]; [left; exists a''|right]; (split; [auto|cbn; eapply reads_p; eauto]).
  - destruct (split_nl u [lit "l"] ts a) as (a' & -> & ->); [not_nl|exact E|].
    destruct (refs_moves _ _ _ _ _ H) as [(a'' & -> & K)|(-> & K)]; [left; exists a''|right]; (split; [auto|cbn; eapply reads_l; eauto]).
  - destruct (split_nl u [lit "f"] ts a) as (a' & -> & ->); [not_nl|exact E|].
    destruct (refs_moves _ _ _ _ _ H) as [(a'' & -> & K)|(-> & K)]; [left; exists a''|right]; (split; [auto|cbn; eapply reads_f; eauto]).
Qed.

Lemma not_float_moves : forall a c rest, not_float (a ++ nl :: u) c rest -> moves not_float a c rest.
Proof.
  intros a c rest H. destruct a as [|t a]; cbn in *; inversion H; subst.
  - right. split; auto. now apply float_wrong.
  - left. exists a. split; auto. now apply float_wrong.
Qed.

Lemma points_no_nl : forall base now toks ks, Forall2 (point_token base now) toks ks -> ~ In nl toks.
Proof. intros base now toks ks H. induction H as [|t k toks ks [H _] K IH]; [auto|]. intros [->|E]; [discriminate H|auto]. Qed.

Lemma refs_no_nl : forall base now toks rs, Forall2 (valid_ref base now) toks rs -> ~ In nl toks.
Proof.
  intros base now toks rs H. induction H as [|t r toks rs H K IH]; [auto|]. intros [->|E]; [|auto].
  eapply nl_not_ref; eauto.
Qed.

Lemma at_end_moves : forall a toks t rest, ~ In nl toks -> toks ++ t :: rest = a ++ nl :: u ->
  (exists a', a = toks ++ t :: a' /\ rest = a' ++ nl :: u) \/ (a = toks /\ t = nl /\ rest = u).
Proof.
  intros a toks t rest N E. destruct (split_nl _ _ _ _ N E) as (a' & -> & E').
  destruct a' as [|t' a']; cbn in E'; inversion E'; subst; [right|left]; rewrite ?app_nil_r; eauto.
Qed.

Ltac moved H := destruct H as [(? & -> & ?K)|(-> & ?K)]; [left; eexists; (split; [reflexivity|])|right; (split; [reflexivity|])]; cbn.

Lemma fails_moves : forall base now a c rest, fails_statement base now (a ++ nl :: u) c rest ->
  moves (fails_statement base now) a c rest.
Proof.
  intros base now a c rest H.
  remember (a ++ nl :: u) as ts eqn:E. destruct H.
  - destruct (split_nl u [lit "v"] ts a) as (a' & -> & ->); [not_nl|exact E|].
    moved (not_float_moves _ _ _ H); now apply fails_v_x.
  - destruct (split_nl u [lit "v"; tx] ts a) as (a' & -> & ->); [not_nl|exact E|].
    moved (not_float_moves _ _ _ H0); eapply fails_v_y; eauto.
  - destruct (split_nl u [lit "v"; tx; ty] ts a) as (a' & -> & ->); [not_nl|exact E|].
    moved (not_float_moves _ _ _ H1); eapply fails_v_z; eauto.
  - destruct (split_nl u [lit "vt"] ts a) as (a' & -> & ->); [not_nl|exact E|].
    moved (not_float_moves _ _ _ H); now apply fails_vt.
  - destruct (split_nl u [lit "vn"] ts a) as (a' & -> & ->); [not_nl|exact E|].
    moved (not_float_moves _ _ _ H); now apply fails_vn_x.
  - destruct (split_nl u [lit "vn"; tx] ts a) as (a' & -> & ->); [not_nl|exact E|].
    moved (not_float_moves _ _ _ H0); eapply fails_vn_y; eauto.
  - destruct (split_nl u [lit "vn"; tx; ty] ts a) as (a' & -> & ->); [not_nl|exact E|].
    moved (not_float_moves _ _ _ H1); eapply fails_vn_z; eauto.
  - destruct (split_nl u [lit "s"] [] a) as (a' & -> & E'); [not_nl|exact E|]. destruct a'; discriminate.
  - destruct (at_end_moves a [lit "s"] t rest) as [(a' & -> & ->)|(-> & -> & ->)]; [not_nl|exact E|left; exists a'|right];
      (split; [reflexivity|]); now apply fails_s.
  - destruct (split_nl u [lit "usemtl"] [] a) as (a' & -> & E'); [not_nl|exact E|]. destruct a'; discriminate.
  - destruct (split_nl u [lit "p"] [] a) as (a' & -> & E'); [not_nl|exact E|]. destruct a'; discriminate.
  - pose proof (points_no_nl _ _ _ _ H) as N.
    destruct (at_end_moves a (lit "p" :: toks) t rest) as [(a' & -> & ->)|(-> & -> & ->)].
    + intros [K|K]; [discriminate K|auto].
    + exact E.
    + left. exists a'. split; [reflexivity|]. rewrite <- app_assoc. cbn. eapply fails_p; eauto.
    + right. split; [reflexivity|]. cbn. eapply fails_p; eauto.
  - exfalso. pose proof (refs_no_nl _ _ _ _ H) as N.
    destruct (split_nl u (lit "l" :: toks) [] a) as (a' & -> & E').
    + intros [K|K]; [discriminate K|auto].
    + now rewrite app_nil_r.
    + destruct a'; discriminate.
  - pose proof (refs_no_nl _ _ _ _ H) as N.
    destruct (at_end_moves a (lit "l" :: toks) t rest) as [(a' & -> & ->)|(-> & -> & ->)].
    + intros [K|K]; [discriminate K|auto].
    + exact E.
    + left. exists a'. split; [reflexivity|]. rewrite <- app_assoc. cbn. eapply fails_l_ref; eauto.
    + right. split; [reflexivity|]. cbn. eapply fails_l_ref; eauto.
  - destruct (split_nl u [lit "l"] ts a) as (a' & -> & ->); [not_nl|exact E|].
    moved (refs_moves _ _ _ _ _ H); eapply fails_l_form; eauto.
  - destruct (split_nl u [lit "f"] ts a) as (a' & -> & ->); [not_nl|exact E|].
    moved (refs_moves _ _ _ _ _ H); eapply fails_f_few; eauto.
  - destruct (split_nl u [lit "f"] ts a) as (a' & -> & ->); [not_nl|exact E|].
    moved (refs_moves _ _ _ _ _ H); eapply fails_f_form; eauto.
  - destruct (at_end_moves a [] t ts) as [(a' & -> & ->)|(-> & -> & ->)]; [intros []|exact E| |now destruct H0].
    left. exists (t :: a'). split; [reflexivity|]. cbn. now apply fails_unknown.
Qed.

End After.

(** * One statement *)

Lemma low_not_nl : forall now, ~ too_low now nl.
Proof. intros now (z & H & _). discriminate H. Qed.

Lemma ref_low_not_nl : forall base now, ~ ref_too_low base now nl.
Proof.
  intros base now H.
  assert (S : split_on "/"%char nl = [nl]) by reflexivity.
  destruct H as [p ps H K|p q ps H _ _|p q r ps H _ _ _]; apply parts_split in H; rewrite S in H; inversion H; subst.
  now apply low_not_nl in K.
Qed.

Lemma overflows_moves : forall u u' base now a, overflows base now (a ++ nl :: u) -> overflows base now (a ++ nl :: u').
Proof.
  intros u u' base now a H. remember (a ++ nl :: u) as ts eqn:E.
  assert (C : forall w toks, w <> nl -> ~ In nl toks -> ~ In nl (w :: toks)) by (intros w toks A B [K|K]; auto).
  destruct H as [toks ks t rest H K|toks rs t rest H K|toks rs t rest H K].
  - destruct (at_end_moves u a (lit "p" :: toks) t rest) as [(a' & -> & ->)|(-> & -> & ->)].
    + apply C; [discriminate|]. eapply points_no_nl; eauto.
    + exact E.
    + rewrite <- app_assoc. cbn. eapply overflows_p; eauto.
    + now apply low_not_nl in K.
  - destruct (at_end_moves u a (lit "l" :: toks) t rest) as [(a' & -> & ->)|(-> & -> & ->)].
    + apply C; [discriminate|]. eapply refs_no_nl; eauto.
    + exact E.
    + rewrite <- app_assoc. cbn. eapply overflows_l; eauto.
    + now apply ref_low_not_nl in K.
  - destruct (at_end_moves u a (lit "f" :: toks) t rest) as [(a' & -> & ->)|(-> & -> & ->)].
    + apply C; [discriminate|]. eapply refs_no_nl; eauto.
    + exact E.
    + rewrite <- app_assoc. cbn. eapply overflows_f; eauto.
    + now apply ref_low_not_nl in K.
Qed.

Lemma float_same : forall t t' x, same_float t t' -> float_token t x -> float_token t' x.
Proof. intros t t' x (y & H & K) F. unfold float_token in *. congruence. Qed.

Lemma float_is : forall t t', same_float t t' -> exists x, float_token t x /\ float_token t' x.
Proof. intros t t' (y & H & K). exists y. auto. Qed.

Lemma float_det : forall t x y, float_token t x -> float_token t y -> x = y.
Proof. unfold float_token. intros. congruence. Qed.

(** The end of a line where a number could have been. *)
Lemma tails_optional : forall d b b' x rest, tails b b' -> reads_optional d b x rest ->
  x = d /\ rest = b /\ reads_optional d b' d b'.
Proof.
  intros d b b' x rest [[-> ->]|(u & u' & -> & -> & H)] K; inversion K; subst.
  - auto using optional_eof.
  - exfalso. eapply nl_not_float; eauto.
  - repeat split; auto. now apply optional_other.
Qed.

Lemma place_more : forall xs ys b b', Forall2 same_reference xs ys -> tails b b' -> place (xs ++ b) (ys ++ b').
Proof.
  intros xs ys b b' H T. pose proof (references_no_nl _ _ H) as [N N']. destruct H as [|t t' xs ys S H].
  - left. now apply tails_respelled.
  - right. destruct (number_lost _ _ S) as [L L']. exists t, (xs ++ b), t', (ys ++ b'). repeat split; auto; try apply L; try apply L'.
    rewrite !count_nl_app. rewrite (count_nl_none xs) by (intros K; apply N; now right). rewrite (count_nl_none ys) by (intros K; apply N'; now right).
    cbn. apply respelled_count. now apply tails_respelled.
Qed.

Lemma refs_same : forall base now xs ys b b' rs rest, Forall2 same_reference xs ys -> tails b b' ->
  reads_refs base now (xs ++ b) rs rest -> exists rest', reads_refs base now (ys ++ b') rs rest' /\ place rest rest'.
Proof.
  intros base now xs ys b b' rs rest H T. revert rs rest. induction H as [|t t' xs ys S H IH]; intros rs rest R; cbn in *.
  - destruct T as [[-> ->]|(u & u' & -> & -> & K)]; inversion R; subst.
    + exists []. split; [constructor|left; apply respelled_refl].
    + exists u'. split; [apply refs_stop, nl_not_ref|now left].
    + exfalso. eapply nl_not_ref; eauto.
  - inversion R; subst.
    + exists (ys ++ b'). split; [apply refs_stop; eapply same_valid_not; eauto|now apply place_more].
    + match goal with K : reads_refs _ _ (xs ++ b) _ _ |- _ => destruct (IH _ _ K) as (rest' & K' & P) end.
      exists rest'. split; auto. apply refs_more; auto. eapply same_valid; eauto.
Qed.

Lemma tails_line : forall xs ys b b' names rest, ~ In nl xs -> ~ In nl ys -> tails b b' -> reads_line (xs ++ b) names rest ->
  names = xs /\ exists rest', reads_line (ys ++ b') ys rest' /\ respelled rest rest'.
Proof.
  intros xs ys b b' names rest N N' [[-> ->]|(u & u' & -> & -> & K)] H.
  - rewrite app_nil_r in *. inversion H as [|? ? M]; subst.
    + split; auto. exists []. split; [now apply line_eof|apply respelled_refl].
    + exfalso. apply N. apply in_or_app. right. now left.
  - inversion H as [? M|? ? M E]; subst.
    + exfalso. apply M. apply in_or_app. right. now left.
    + destruct (split_nl u _ _ _ M E) as (a & -> & E'). destruct a as [|t a]; cbn in E'; inversion E'; subst.
      * rewrite app_nil_r in *. split; auto. exists u'. split; [now apply line_nl|auto].
      * exfalso. apply N. apply in_or_app. right. now left.
Qed.

Lemma integer_reference : forall xs ys, Forall2 same_integer xs ys -> Forall2 same_reference xs ys.
Proof.
  intros xs ys H. induction H as [|t t' xs ys (x & H & K) _ IH]; constructor; auto.
  exists [t], [t']. assert (P : forall t, RustStd.parse_isize t <> None -> parts_of t [t]).
  { intros p Hp. split; [discriminate|]. split; [|reflexivity]. constructor; [|constructor].
    destruct (RustStd.parse_isize p) as [z|] eqn:E; [|now destruct Hp]. eapply isize_no_slash; eauto. }
  split; [apply P; congruence|]. split; [apply P; congruence|]. constructor; [|constructor]. right. now exists x.
Qed.

Lemma points_same : forall base now xs ys ks, Forall2 same_integer xs ys -> Forall2 (point_token base now) xs ks ->
  Forall2 (point_token base now) ys ks.
Proof.
  intros base now xs ys ks H. revert ks. induction H as [|t t' xs ys S H IH]; intros ks K; inversion K; subst; constructor; auto.
  match goal with P : point_token _ _ t _ |- _ => destruct P as [P P'] end. split; auto. eapply same_number_token; eauto.
Qed.

Lemma respelled_step : forall base now ts ts' s mid, respelled ts ts' -> reads_statement base now ts s mid ->
  exists mid', reads_statement base now ts' s mid' /\ place mid mid'.
Proof.
  intros base now ts ts' s mid H R. apply respelled_cases in H. destruct H as (l & l' & b & b' & -> & -> & L & T).
  destruct L as [l N|xs ys [N N'] F|xs ys [N N'] F|xs ys N F|xs ys F|xs ys F|xs ys F|t t' F].
  - destruct T as [[-> ->]|(u & u' & -> & -> & K)]; [exists mid; split; auto; left; apply respelled_refl|].
    pose proof (statement_suffix _ _ _ _ _ R) as [p Ep].
    destruct (statement_moves u u' _ _ _ _ _ R) as [(a' & -> & M)|(-> & M)].
    + exists (a' ++ nl :: u'). split; auto. left. apply respelled_more; auto. apply line_same.
      rewrite app_assoc in Ep. apply app_inv_tail in Ep. subst l. intros I. apply N. apply in_or_app. now right.
    + exists u'. split; auto. now left.
  - destruct F as [|tx tx' ? ? F1 F]; [cbn in N; lia|]. destruct F as [|ty ty' ? ? F2 F]; [cbn in N; lia|].
    destruct F as [|tz tz' ? ? F3 F]; [cbn in N; lia|]. destruct F as [|tw tw' ? ? F4 F].
    + cbn in R. inversion R; subst.
      match goal with O : reads_optional _ _ _ _ |- _ => destruct (tails_optional _ _ _ _ _ T O) as (-> & -> & O') end.
      exists b'. split; [|left; now apply tails_respelled]. cbn. apply reads_v; eauto using float_same.
    + destruct F; [|cbn in N'; lia]. destruct (float_is _ _ F4) as (w & W & W'). cbn in R. inversion R; subst.
      match goal with O : reads_optional _ _ _ _ |- _ => inversion O; subst end.
      2: { exfalso. match goal with K : forall x, ~ float_token tw x |- _ => eapply K; eauto end. }
      exists b'. split; [|left; now apply tails_respelled]. cbn. apply reads_v; eauto using float_same. apply optional_given. eauto using float_same.
  - destruct F as [|tx tx' ? ? F1 F]; [cbn in N; lia|]. destruct F as [|ty ty' ? ? F2 F].
    + cbn in R. inversion R; subst.
      repeat match goal with O : reads_optional _ _ _ _ |- _ => destruct (tails_optional _ _ _ _ _ T O) as (-> & -> & ?O'); clear O end.
      exists b'. split; [|left; now apply tails_respelled]. cbn. eapply reads_vt; eauto using float_same.
    + destruct (float_is _ _ F2) as (y & Y & Y'). cbn in R. inversion R; subst.
      match goal with O : reads_optional _ (ty :: _) _ _ |- _ => inversion O; subst; clear O end.
      2: { exfalso. match goal with K : forall x, ~ float_token ty x |- _ => eapply K; eauto end. }
      destruct F as [|tz tz' ? ? F3 F].
      * match goal with O : reads_optional _ ([] ++ b) _ _ |- _ => cbn in O; destruct (tails_optional _ _ _ _ _ T O) as (-> & -> & O'); clear O end.
        exists b'. split; [|left; now apply tails_respelled]. cbn. eapply reads_vt; eauto using float_same. apply optional_given. eauto using float_same.
      * destruct F; [|cbn in N'; lia]. destruct (float_is _ _ F3) as (z & Z & Z').
        match goal with O : reads_optional _ ((tz :: _) ++ b) _ _ |- _ => cbn in O; inversion O; subst; clear O end.
        2: { exfalso. match goal with K : forall x, ~ float_token tz x |- _ => eapply K; eauto end. }
        exists b'. split; [|left; now apply tails_respelled]. cbn. eapply reads_vt; [eauto using float_same|..];
          apply optional_given; eauto using float_same.
  - destruct F as [|tx tx' ? ? F1 F]; [cbn in N; lia|]. destruct F as [|ty ty' ? ? F2 F]; [cbn in N; lia|].
    destruct F as [|tz tz' ? ? F3 F]; [cbn in N; lia|]. destruct F; [|cbn in N; lia]. cbn in R. inversion R; subst.
    exists b'. split; [|left; now apply tails_respelled]. cbn. apply reads_vn; eauto using float_same.
  - destruct (integers_no_nl _ _ F) as [N N']. cbn in R. inversion R; subst.
    match goal with O : reads_line _ _ _ |- _ => destruct (tails_line _ ys _ _ _ _ N N' T O) as (-> & rest' & O' & K) end.
    exists rest'. split; [|now left]. cbn. eapply reads_p; eauto. eapply points_same; eauto.
  - cbn in R. inversion R; subst.
    match goal with O : reads_refs _ _ _ _ _ |- _ => destruct (refs_same _ _ _ _ _ _ _ _ F T O) as (rest' & O' & K) end.
    exists rest'. split; auto. cbn. now apply reads_l.
  - cbn in R. inversion R; subst.
    match goal with O : reads_refs _ _ _ _ _ |- _ => destruct (refs_same _ _ _ _ _ _ _ _ F T O) as (rest' & O' & K) end.
    exists rest'. split; auto. cbn. now apply reads_f.
  - destruct F as (n & F & F'). cbn in R. inversion R; subst.
    exists b'. split; [|left; now apply tails_respelled]. cbn. apply reads_s.
    match goal with S : smoothing_token _ _ |- _ => inversion S; subst; clear S end; [discriminate F|].
    apply smoothing_number. congruence.
Qed.

Lemma cut : forall (R : bytes -> bytes -> Prop) xs ys b b' toks t rest, Forall2 R xs ys -> tails b b' -> ~ In nl toks ->
  toks ++ t :: rest = xs ++ b ->
  (exists xs2 toks' t' ys2, ys = toks' ++ t' :: ys2 /\ Forall2 R toks toks' /\ R t t' /\ Forall2 R xs2 ys2 /\ rest = xs2 ++ b) \/
  (xs = toks /\ exists u u', b = nl :: u /\ b' = nl :: u' /\ t = nl /\ rest = u /\ respelled u u').
Proof.
  intros R xs ys b b' toks t rest F T N E.
  assert (C : (exists xs2, xs = toks ++ t :: xs2 /\ rest = xs2 ++ b) \/
              (xs = toks /\ exists u u', b = nl :: u /\ b' = nl :: u' /\ t = nl /\ rest = u /\ respelled u u')).
  { destruct T as [[-> ->]|(u & u' & -> & -> & K)].
    - rewrite app_nil_r in E. subst xs. left. exists rest. now rewrite app_nil_r.
    - destruct (at_end_moves u xs toks t rest N E) as [(a' & -> & ->)|(-> & -> & ->)]; [left; eauto|right; eauto 10]. }
  destruct C as [(xs2 & -> & ->)|C]; [left|now right].
  apply Forall2_app_inv_l in F. destruct F as (toks' & ys' & F1 & F2 & ->). inversion F2; subst. eauto 10.
Qed.

Lemma refs_valid_same : forall base now xs ys rs, Forall2 same_reference xs ys -> Forall2 (valid_ref base now) xs rs ->
  Forall2 (valid_ref base now) ys rs.
Proof.
  intros base now xs ys rs H. revert rs. induction H as [|t t' xs ys S H IH]; intros rs K; inversion K; subst; constructor; auto.
  eapply same_valid; eauto.
Qed.

Lemma rest_count : forall xs ys b b', ~ In nl xs -> ~ In nl ys -> tails b b' -> count_nl (xs ++ b) = count_nl (ys ++ b').
Proof.
  intros xs ys b b' N N' T. rewrite !count_nl_app, (count_nl_none xs), (count_nl_none ys) by auto. cbn.
  apply respelled_count. now apply tails_respelled.
Qed.

Lemma integers_app : forall xs ys xs' ys', Forall2 same_integer xs ys -> Forall2 same_integer xs' ys' -> Forall2 same_integer (xs ++ xs') (ys ++ ys').
Proof. intros. now apply Forall2_app. Qed.

Lemma tails_nil : forall b', tails [] b' -> b' = [].
Proof. intros b' [[_ H]|(u & u' & H & _)]; [auto|discriminate]. Qed.

Ltac is_number := exfalso; match goal with
  | K : not_float (?t :: _) _ _, F : same_float ?t _ |- _ =>
      inversion K; subst; destruct (float_is _ _ F) as (? & ? & _);
      match goal with Q : forall x, ~ float_token t x |- _ => eapply Q; eauto end
  end.
Ltac is_keyword := exfalso; match goal with K : ~ In _ keywords |- _ => apply K; cbn; tauto end.

Lemma respelled_fails : forall base now ts ts' c rest, respelled ts ts' -> fails_statement base now ts c rest ->
  exists c' rest', fails_statement base now ts' c' rest' /\ alike c c' /\ count_nl rest = count_nl rest'.
Proof.
  intros base now ts ts' c rest H R. apply respelled_cases in H. destruct H as (l & l' & b & b' & -> & -> & L & T).
  destruct L as [l N|xs ys [N N'] F|xs ys [N N'] F|xs ys N F|xs ys F|xs ys F|xs ys F|t t' F].
  - destruct T as [[-> ->]|(u & u' & -> & -> & K)]; [exists c, rest; repeat split; auto|].
    destruct (fails_moves u u' _ _ _ _ _ R) as [(a' & -> & M)|(-> & M)].
    + exists c, (a' ++ nl :: u'). repeat split; auto. apply respelled_count in K. rewrite !count_nl_app.
      change (nl :: u) with ([nl] ++ u). change (nl :: u') with ([nl] ++ u'). rewrite !count_nl_app. lia.
    + exists c, u'. repeat split; auto. now apply respelled_count.
  - destruct F as [|tx tx' ? ? F1 F]; [cbn in N; lia|]. destruct F as [|ty ty' ? ? F2 F]; [cbn in N; lia|].
    destruct F as [|tz tz' ? ? F3 F]; [cbn in N; lia|]. cbn in R. inversion R; subst; try is_number. is_keyword.
  - destruct F as [|tx tx' ? ? F1 F]; [cbn in N; lia|]. cbn in R. inversion R; subst; try is_number. is_keyword.
  - destruct F as [|tx tx' ? ? F1 F]; [cbn in N; lia|]. destruct F as [|ty ty' ? ? F2 F]; [cbn in N; lia|].
    destruct F as [|tz tz' ? ? F3 F]; [cbn in N; lia|]. cbn in R. inversion R; subst; try is_number. is_keyword.
  - destruct (integers_no_nl _ _ F) as [N N']. cbn in R. inversion R; subst; try is_keyword.
    + destruct F; [|discriminate]. cbn in *. subst b. apply tails_nil in T. subst b'.
      exists (EndOfFile, msg_end), []. split; [apply fails_p_eof|split; reflexivity].
    + match goal with P : Forall2 (point_token _ _) _ _, E : toks ++ _ = _ |- _ =>
        pose proof (points_no_nl _ _ _ _ P) as M;
        destruct (cut _ _ _ _ _ _ _ _ F T M E) as [(xs2 & toks' & t' & ys2 & -> & F1 & F2 & F3 & ->)|(-> & u & u' & -> & -> & -> & -> & K)] end.
      * exists c, (ys2 ++ b'). split; [|split; [reflexivity|]].
        -- cbn. rewrite <- app_assoc. cbn. eapply fails_p; eauto using points_same, same_bad_number.
           right. apply (number_not_nl _ _ _ _ eq_refl F2).
        -- destruct (integers_no_nl _ _ F3). now apply rest_count.
      * match goal with D : _ \/ nl <> nl |- _ => destruct D as [->|D]; [|now destruct D] end.
        inversion F; subst. exists c, u'. split; [|split; [reflexivity|now apply respelled_count]].
        cbn. apply (fails_p base now [] [] nl c u'); auto.
  - destruct (references_no_nl _ _ F) as [N N']. cbn in R. inversion R; subst; try is_keyword.
    + assert (b = []) as ->.
      { destruct T as [[-> _]|(u & u' & -> & _ & _)]; auto. exfalso.
        match goal with P : Forall2 (valid_ref _ _) (xs ++ _) _ |- _ => apply (refs_no_nl _ _ _ _ P) end.
        apply in_or_app. right. now left. }
      apply tails_nil in T. subst b'. rewrite app_nil_r in *.
      exists (EndOfFile, msg_end), []. repeat split; auto. cbn. eapply fails_l_eof; eauto using refs_valid_same.
    + match goal with P : Forall2 (valid_ref _ _) _ _, E : toks ++ _ = _ |- _ =>
        pose proof (refs_no_nl _ _ _ _ P) as M;
        destruct (cut _ _ _ _ _ _ _ _ F T M E) as [(xs2 & toks' & t' & ys2 & -> & F1 & F2 & F3 & ->)|(-> & u & u' & -> & -> & -> & -> & K)] end.
      * match goal with B : bad_ref _ _ _ _ |- _ => destruct (same_bad_ref _ _ _ _ _ F2 B) as (c' & B' & A) end.
        exists c', (ys2 ++ b'). split; [|split; [exact A|]].
        -- cbn. rewrite <- app_assoc. cbn. eapply fails_l_ref; eauto using refs_valid_same.
        -- destruct (references_no_nl _ _ F3). now apply rest_count.
      * exists c, u'. split; [|split; [reflexivity|now apply respelled_count]].
        cbn. eapply fails_l_ref; eauto using refs_valid_same.
    + match goal with O : reads_refs _ _ _ _ _ |- _ => destruct (refs_same _ _ _ _ _ _ _ _ F T O) as (rest' & O' & K) end.
      eexists _, rest'. split; [cbn; eapply fails_l_form; eauto|split; [reflexivity|now apply place_count]].
  - cbn in R. inversion R; subst; try is_keyword;
    match goal with O : reads_refs _ _ _ _ _ |- _ => destruct (refs_same _ _ _ _ _ _ _ _ F T O) as (rest' & O' & K) end.
    + eexists _, rest'. split; [cbn; eapply fails_f_few; eauto|split; [reflexivity|now apply place_count]].
    + eexists _, rest'. split; [cbn; eapply fails_f_form; eauto|split; [reflexivity|now apply place_count]].
  - destruct F as (n & F & F'). cbn in R. inversion R; subst; try is_keyword.
    exfalso. match goal with Q : forall n, ~ smoothing_token t n |- _ => apply (Q n) end. now apply smoothing_number.
Qed.

Lemma respelled_overflows : forall base now ts ts', respelled ts ts' -> overflows base now ts -> overflows base now ts'.
Proof.
  intros base now ts ts' H R. apply respelled_cases in H. destruct H as (l & l' & b & b' & -> & -> & L & T).
  destruct L as [l N|xs ys _ F|xs ys _ F|xs ys N F|xs ys F|xs ys F|xs ys F|t t' F].
  - destruct T as [[-> ->]|(u & u' & -> & -> & K)]; [auto|]. eapply overflows_moves; eauto.
  - inversion R.
  - inversion R.
  - inversion R.
  - cbn in R. inversion R as [toks ks t rest P Q E| |]; subst. pose proof (points_no_nl _ _ _ _ P) as M.
    destruct (cut _ _ _ _ _ _ _ _ F T M E) as [(xs2 & toks' & t' & ys2 & -> & F1 & F2 & F3 & ->)|(-> & u & u' & -> & -> & -> & -> & K)].
    + cbn. rewrite <- app_assoc. cbn. eapply overflows_p; eauto using points_same. eapply same_low; eauto. now right.
    + now apply low_not_nl in Q.
  - cbn in R. inversion R as [|toks ks t rest P Q E|]; subst. pose proof (refs_no_nl _ _ _ _ P) as M.
    destruct (cut _ _ _ _ _ _ _ _ F T M E) as [(xs2 & toks' & t' & ys2 & -> & F1 & F2 & F3 & ->)|(-> & u & u' & -> & -> & -> & -> & K)].
    + cbn. rewrite <- app_assoc. cbn. eapply overflows_l; eauto using refs_valid_same, same_ref_low.
    + now apply ref_low_not_nl in Q.
  - cbn in R. inversion R as [| |toks ks t rest P Q E]; subst. pose proof (refs_no_nl _ _ _ _ P) as M.
    destruct (cut _ _ _ _ _ _ _ _ F T M E) as [(xs2 & toks' & t' & ys2 & -> & F1 & F2 & F3 & ->)|(-> & u & u' & -> & -> & -> & -> & K)].
    + cbn. rewrite <- app_assoc. cbn. eapply overflows_f; eauto using refs_valid_same, same_ref_low.
    + now apply ref_low_not_nl in Q.
  - inversion R.
Qed.

(** * Files *)

Lemma Forall2_len : forall A B (R : A -> B -> Prop) xs ys, Forall2 R xs ys -> length xs = length ys.
Proof. intros A B R xs ys H. induction H; cbn; auto. Qed.

Lemma respelled_line_sym : forall l l', respelled_line l l' -> respelled_line l' l.
Proof.
  intros l l' H. destruct H as [l N|xs ys N F|xs ys N F|xs ys N F|xs ys F|xs ys F|xs ys F|t t' F].
  - now apply line_same.
  - apply line_v; [now rewrite <- (Forall2_len _ _ _ _ _ F)|]. eapply Forall2_sym; eauto. intros x y. apply same_number_sym.
  - apply line_vt; [now rewrite <- (Forall2_len _ _ _ _ _ F)|]. eapply Forall2_sym; eauto. intros x y. apply same_number_sym.
  - apply line_vn; [now rewrite <- (Forall2_len _ _ _ _ _ F)|]. eapply Forall2_sym; eauto. intros x y. apply same_number_sym.
  - apply line_p. eapply Forall2_sym; eauto. intros x y. apply same_number_sym.
  - apply line_l. eapply Forall2_sym; eauto. exact same_reference_sym.
  - apply line_f. eapply Forall2_sym; eauto. exact same_reference_sym.
  - apply line_s. now apply same_number_sym.
Qed.

Lemma respelled_sym : forall ts ts', respelled ts ts' -> respelled ts' ts.
Proof. intros ts ts' H. induction H; [apply respelled_last|apply respelled_more]; auto using respelled_line_sym. Qed.

(** The first token. *)
Lemma respelled_first : forall ts ts', respelled ts ts' ->
  (ts = [] /\ ts' = []) \/ exists t r r', ts = t :: r /\ ts' = t :: r'.
Proof.
  intros ts ts' H. apply respelled_cases in H. destruct H as (l & l' & b & b' & -> & -> & L & T).
  destruct L as [l N|xs ys N F|xs ys N F|xs ys N F|xs ys F|xs ys F|xs ys F|t t' F]; cbn; eauto 6.
  destruct l as [|t l]; cbn; eauto 6. destruct T as [[-> ->]|(u & u' & -> & -> & _)]; eauto 6.
Qed.

Lemma respelled_nil : forall ts', respelled [] ts' -> ts' = [].
Proof. intros ts' H. apply respelled_first in H. destruct H as [[_ H]|(t & r & r' & H & _)]; [auto|discriminate]. Qed.

Lemma respelled_blank : forall ts ts', respelled (nl :: ts) ts' -> exists r, ts' = nl :: r /\ respelled ts r.
Proof.
  intros ts ts' H. apply respelled_cases in H. destruct H as (l & l' & b & b' & E & -> & L & T).
  destruct (respelled_line_no_nl _ _ L) as [N N']. destruct l as [|t l]; [|cbn in E; inversion E; subst; exfalso; apply N; now left].
  inversion L; subst. cbn in *. subst b. destruct T as [[T _]|(u & u' & T & -> & K)]; [discriminate|]. inversion T; subst. eauto.
Qed.

Lemma respelled_words : forall w ts ts', ~ In w keywords -> w <> nl -> respelled (w :: ts) ts' ->
  exists l b b', ts = l ++ b /\ ts' = w :: l ++ b' /\ ~ In nl l /\ tails b b'.
Proof.
  intros w ts ts' K W H. apply respelled_cases in H. destruct H as (l & l' & b & b' & E & -> & L & T).
  destruct L as [l N|xs ys N F|xs ys N F|xs ys N F|xs ys F|xs ys F|xs ys F|t t' F];
    try (cbn in E; inversion E; subst w; exfalso; apply K; cbn; tauto).
  destruct l as [|t l]; cbn in E.
  - subst b. destruct T as [[T _]|(u & u' & T & _)]; inversion T; congruence.
  - inversion E; subst. exists l, b, b'. repeat split; auto. intros I. apply N. now right.
Qed.

Lemma o_not_keyword : ~ In (lit "o") keywords.
Proof. intros K. cbn in K. repeat destruct K as [K|K]; try contradiction; discriminate K. Qed.

Lemma respelled_header : forall name ts ts', respelled (lit "o" :: name :: nl :: ts) ts' ->
  exists r, ts' = lit "o" :: name :: nl :: r /\ respelled ts r.
Proof.
  intros name ts ts' H. apply respelled_words in H; [|exact o_not_keyword|discriminate].
  destruct H as (l & b & b' & E & -> & N & T). destruct l as [|x [|y l]]; cbn in E.
  - subst b. destruct T as [[T _]|(u & u' & T & -> & K)]; inversion T; subst.
    apply respelled_blank in K. destruct K as (r & -> & K). exists r. auto.
  - inversion E; subst. destruct T as [[T _]|(u & u' & T & -> & K)]; inversion T; subst. exists u'. auto.
  - inversion E; subst. exfalso. apply N. right. now left.
Qed.

Lemma respelled_libraries : forall ts libs mid, reads_libraries ts libs mid -> forall ts', respelled ts ts' ->
  exists mid', reads_libraries ts' libs mid' /\ respelled mid mid'.
Proof.
  intros ts libs mid H. induction H as [ts libs rest H IH|ts names mid libs rest Hl H IH|ts He]; intros ts' K.
  - apply respelled_blank in K. destruct K as (r & -> & K). destruct (IH _ K) as (mid' & L & Q). exists mid'. split; auto.
    now apply libraries_blank.
  - apply respelled_words in K.
    + destruct K as (l & b & b' & -> & -> & N & T).
      destruct (tails_line l l b b' names mid N N T Hl) as (-> & mid' & L & Q). destruct (IH _ Q) as (rest' & R & Q').
      exists rest'. split; auto. eapply libraries_line; eauto.
    + intros I. cbn in I. repeat destruct I as [I|I]; try contradiction; discriminate I.
    + discriminate.
  - exists ts'. split; auto. apply libraries_end. apply respelled_first in K.
    destruct K as [[_ ->]|(t & r & r' & -> & ->)]; auto.
Qed.

Lemma place_reads : forall base now ts ts' s mid, place ts ts' -> reads_statement base now ts s mid ->
  exists mid', reads_statement base now ts' s mid' /\ place mid mid'.
Proof.
  intros base now ts ts' s mid [H|(t & r & t' & r' & -> & -> & (L & _) & _)] R; [eapply respelled_step; eauto|].
  exfalso. apply L. inversion R; subst; cbn; tauto.
Qed.

Lemma place_fails : forall base now ts ts' c rest, place ts ts' -> fails_statement base now ts c rest ->
  exists c' rest', fails_statement base now ts' c' rest' /\ fst c = fst c' /\ count_nl rest = count_nl rest'.
Proof.
  intros base now ts ts' c rest [H|(t & r & t' & r' & -> & -> & (L & L1 & L2) & (L' & L1' & L2') & E)] R; [eapply respelled_fails; eauto|].
  exists (InvalidObjectStatement, msg_statement t'), (t' :: r'). split; [now apply fails_unknown|].
  inversion R; subst; try (exfalso; apply L; cbn; tauto). split; [reflexivity|]. now rewrite !count_nl_cons.
Qed.

Lemma place_header_fails : forall ts ts' c rest, place ts ts' -> fails_header ts c rest ->
  exists c' rest', fails_header ts' c' rest' /\ fst c = fst c' /\ count_nl rest = count_nl rest'.
Proof.
  intros ts ts' c rest [H|(t & r & t' & r' & -> & -> & (L & L1 & L2) & _)] R; [|inversion R; subst; now destruct L2].
  assert (W : exists w, ts = lit "o" :: w) by (inversion R; eauto). destruct W as [w ->].
  apply respelled_words in H; [|exact o_not_keyword|discriminate]. destruct H as (l & b & b' & -> & -> & N & T).
  destruct l as [|x [|y l]]; cbn in *.
  - destruct T as [[-> ->]|(u & u' & -> & -> & K)]; [eauto 6|]. inversion R; subst.
    + apply respelled_nil in K. subst u'. eauto 6.
    + pose proof (respelled_count _ _ K) as C. apply respelled_first in K. destruct K as [[K _]|(h & r & r' & K & ->)]; inversion K; subst.
      eexists _, r'. split; [now apply header_tag|]. split; [reflexivity|]. now rewrite !count_nl_cons in C.
  - destruct T as [[-> ->]|(u & u' & -> & -> & K)]; [eauto 6|]. inversion R; subst. congruence.
  - inversion R; subst. eexists _, (l ++ b'). split; [now apply header_tag|]. split; [reflexivity|].
    apply rest_count; auto; intros I; apply N; right; now right.
Qed.

Lemma place_end : forall ts ts', place ts ts' -> (at_object_end ts <-> at_object_end ts') /\ (ts = [] -> ts' = []).
Proof.
  intros ts ts' [H|(t & r & t' & r' & -> & -> & (_ & _ & L) & (_ & _ & L') & _)].
  - apply respelled_first in H. destruct H as [[-> ->]|(t & r & r' & -> & ->)]; cbn; split; try tauto. discriminate.
  - cbn. split; [tauto|discriminate].
Qed.

Lemma respelled_carried : forall T T', respelled T T' -> carried T T'.
Proof.
  intros T T' H. apply (simulated place); auto.
  - exact place_end.
  - intros ts ts' [K|(t & r & t' & r' & E & _ & (_ & L & _) & _)]; [|inversion E; congruence].
    apply respelled_blank in K. destruct K as (r & -> & K). exists r. split; auto. now left.
  - intros name ts ts' [K|(t & r & t' & r' & E & _ & (_ & _ & L) & _)]; [|inversion E; congruence].
    apply respelled_header in K. destruct K as (r & -> & K). exists r. split; auto. now left.
  - exact place_reads.
  - exact place_fails.
  - exact place_header_fails.
  - intros base now ts ts' [K|(t & r & t' & r' & -> & -> & (L & _) & _)] O; [eapply respelled_overflows; eauto|].
    exfalso. apply L. inversion O; subst; cbn; tauto.
  - intros libs mid L. destruct (respelled_libraries _ _ _ L _ H) as (mid' & L' & Q). exists mid'. split; auto. now left.
Qed.

Lemma obj_respelled : forall dbg input input' ts ts', fits input -> fits input' -> tokenizes input ts -> tokenizes input' ts' ->
  respelled ts ts' -> same_outcome (parse dbg input) (parse dbg input').
Proof.
  intros dbg input input' ts ts' F F' H H' R. eapply carried_outcome; eauto.
  - now apply respelled_count.
  - now apply respelled_carried.
  - apply respelled_carried. now apply respelled_sym.
Qed.
