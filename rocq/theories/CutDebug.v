(** Debug builds: a text that is cut off overflows only where the whole text does. *)
From Verif Require Import ObjModel ObjErrorSpec ObjView PlaceSpec LexerProofs ConsumeProofs TextProofs ObjAccept ObjFile ObjTop
  ObjReach ObjUnique ObjMeaning ObjExtend ObjFacts ObjMore ObjProps Places Lines ObjCut Viable.
Local Open Scope list_scope.

Section Append.
  (** What is added at the end. *)
  Variable v : list bytes.

  Definition appends {A} (R : list bytes -> A -> list bytes -> Prop) : Prop :=
    forall ts x rest, R ts x rest -> rest <> [] -> R (ts ++ v) x (rest ++ v).

  Lemma line_appends : appends reads_line.
  Proof. intros ts names rest H Hr. destruct H; [congruence|]. rewrite <- app_assoc. now constructor. Qed.

  Lemma optional_appends : forall d, appends (reads_optional d).
  Proof. intros d ts x rest H Hr. destruct H; [| |congruence]; now constructor. Qed.

  Lemma refs_appends : forall base now, appends (reads_refs base now).
  Proof. intros base now ts x rest H Hr. induction H; [congruence| |]; constructor; auto. Qed.

  Lemma statement_appends : forall base now, appends (reads_statement base now).
  Proof.
    intros base now ts s rest H Hr.
    destruct H as [tx ty tz ts x y z w rest Hx Hy Hz Ho|tu ts u' v' mid w rest Hu Hv Hw|tx ty tz x y z rest Hx Hy Hz|ts names rest Hl
      |t n rest Ht|name rest|ts toks ks rest Hl Hp Hk|ts rs rest Hr' Hlen Hf|ts rs rest Hr' Hlen Hf]; cbn [app].
    - constructor; auto. now apply optional_appends.
    - assert (Hm : mid <> []) by (intros ->; inversion Hw; subst; congruence).
      econstructor; eauto; apply optional_appends; eauto.
    - now constructor.
    - constructor. now apply line_appends.
    - now constructor.
    - constructor.
    - econstructor; eauto. now apply line_appends.
    - constructor; auto. now apply refs_appends.
    - constructor; auto. now apply refs_appends.
  Qed.

  Lemma libraries_appends : appends reads_libraries.
  Proof.
    intros ts libs rest H Hr. induction H as [ts libs rest H IH|ts names mid libs rest Hl H IH|ts He].
    - constructor. auto.
    - cbn. econstructor; [apply line_appends; eauto|auto]. intros ->. inversion H; subst. congruence.
    - destruct ts; [congruence|]. now constructor.
  Qed.

  Lemma reaches_appends : forall T done cur r, reaches T done cur r -> r <> [] -> reaches (T ++ v) done cur (r ++ v).
  Proof.
    intros T done cur r H.
    induction H as [libs rest H|rest H IH Hn|done name rest H IH|done [name ss] rest H IH|done name ss s mid rest H IH Hs|done [name ss] rest H IH He Hd];
      intros Hr.
    - apply (reaches_start _ libs). now apply libraries_appends.
    - apply reaches_unnamed; auto. destruct rest; [congruence|]. auto.
    - apply reaches_named. apply (IH ltac:(discriminate)).
    - apply reaches_blank. apply (IH ltac:(discriminate)).
    - eapply reaches_statement; [apply IH|apply statement_appends; eauto]. intros ->. eapply statement_end; [exact Hs|exact I].
    - apply reaches_end; auto. now apply end_app.
  Qed.

  Lemma overflows_appends : forall base now ts, overflows base now ts -> overflows base now (ts ++ v).
  Proof. intros base now ts H. destruct H; cbn [app]; rewrite <- app_assoc; cbn [app]; econstructor; eauto. Qed.

  Lemma overflow_appends : forall T, overflows_file T -> overflows_file (T ++ v).
  Proof.
    intros T (done & n & ss & ts & H & K). exists done, n, ss, (ts ++ v). split; [|now apply overflows_appends].
    apply reaches_appends; auto. intros ->. inversion K.
  Qed.
End Append.

Lemma nl_not_low : forall n, ~ too_low n nl.
Proof. intros n (z & H & _). vm_compute in H. discriminate. Qed.

Lemma nl_not_ref_low : forall base now, ~ ref_too_low base now nl.
Proof.
  assert (S : forall p q ps, ~ parts_of nl (p :: q :: ps)).
  { intros p q ps (_ & _ & E). assert (K : In "/"%char nl) by (rewrite E; cbn; apply in_or_app; right; now left).
    destruct K as [K|[]]. discriminate K. }
  intros base now [p ps Hp Hl|p q ps Hp|p q r ps Hp]; [|exact (S _ _ _ Hp)|exact (S _ _ _ Hp)].
  destruct ps as [|q ps]; [|exact (S _ _ _ Hp)]. destruct Hp as (_ & _ & E). cbn in E. subst p. exact (nl_not_low _ Hl).
Qed.

Lemma overflows_cut : forall base now m tl, overflows base now (m ++ nl :: tl) -> overflows base now m.
Proof.
  assert (L : forall word pre t rest m tl, word <> nl -> ~ In nl pre -> t <> nl -> word :: pre ++ t :: rest = m ++ nl :: tl ->
    exists r, m = word :: pre ++ t :: r).
  { intros word pre t rest m tl Hw Hp Ht E. destruct (split_nl tl (word :: pre ++ [t]) rest m) as (a & -> & _).
    - cbn. rewrite in_app_iff. cbn. intuition congruence.
    - cbn. rewrite <- app_assoc. exact E.
    - exists a. cbn. now rewrite <- app_assoc. }
  assert (F : forall A (P : bytes -> A -> Prop) toks ks, (forall a, ~ P nl a) -> Forall2 P toks ks -> ~ In nl toks).
  { intros A P toks ks HP H. induction H as [|t k toks ks Ht H IH]; cbn; [tauto|]. intros [->|C]; [exact (HP _ Ht)|exact (IH C)]. }
  intros base now m tl H. remember (m ++ nl :: tl) as T eqn:E.
  destruct H as [toks ks t rest Hp Ht|toks rs t rest Hp Ht|toks rs t rest Hp Ht].
  - apply L in E; [|discriminate| |intros ->; exact (nl_not_low _ Ht)].
    + destruct E as (r & ->). econstructor; eauto.
    + eapply F; [|exact Hp]. intros k [K _]. exact (nl_not_number _ K).
  - apply L in E; [|discriminate| |intros ->; exact (nl_not_ref_low _ _ Ht)].
    + destruct E as (r & ->). econstructor; eauto.
    + eapply F; [|exact Hp]. intros k. apply nl_not_ref.
  - apply L in E; [|discriminate| |intros ->; exact (nl_not_ref_low _ _ Ht)].
    + destruct E as (r & ->). econstructor; eauto.
    + eapply F; [|exact Hp]. intros k. apply nl_not_ref.
Qed.

Lemma overflow_use : forall u, overflows_file (u ++ nl :: use) -> overflows_file u.
Proof.
  intros u (done & n & ss & ts & H & K). destruct (reaches_suffix _ _ _ _ H) as (q & E).
  assert (M : exists m, m <> [] /\ ts = m ++ nl :: use).
  { destruct ts as [|t ts]; [inversion K|]. assert (Ht : t = lit "p" \/ t = lit "l" \/ t = lit "f") by (inversion K; auto).
    destruct (split_cases _ _ _ _ _ E) as [(a & -> & ->)|(a & -> & E2)].
    - exists (t :: a). split; [discriminate|reflexivity].
    - exfalso. destruct a as [|a1 a]; [|destruct a as [|a2 a]; [|destruct a as [|a3 a]; [|destruct a; discriminate E2]]];
        injection E2 as; subst; destruct Ht as [C|[C|C]]; discriminate C. }
  destruct M as (m & Hm & ->). destruct (reaches_cut (nl :: use) _ _ _ _ H u m eq_refl eq_refl) as [R|(R & _)]; [|contradiction].
  exists done, n, ss, m. split; auto. eapply overflows_cut; eauto.
Qed.

Lemma same_mode : forall dbg input input' ts ts', fits input -> fits input' -> tokenizes input ts -> tokenizes input' ts' ->
  (overflows_file ts' -> overflows_file ts) -> parse dbg input <> Panic PanicOverflow -> parse dbg input' = parse false input'.
Proof.
  intros [|] input input' ts ts' Hf Hf' Ht Ht' H P; auto. apply debug_otherwise; auto. intros C. apply debug_overflow_iff in C; auto.
  destruct C as (u & Hu & C). rewrite (tokenizes_det _ _ _ Hu Ht') in C. apply P. apply debug_overflow_iff; eauto.
Qed.

Lemma debug_or : forall input, fits input -> parse true input = Panic PanicOverflow \/ parse true input = parse false input.
Proof. intros input Hf. destruct (ObjDebug.parse_debug input Hf) as [[_ E]|[_ E]]; auto. Qed.

(** * Cut off behind a line end *)

Theorem cut_mode : forall dbg a b, fits (a ++ LF :: b) -> parse dbg (a ++ LF :: b) <> Panic PanicOverflow ->
  parse dbg (a ++ [LF]) = parse false (a ++ [LF]).
Proof.
  intros dbg a b Hf P.
  assert (H1 : tokenizes (a ++ [LF]) (lex a ++ [nl])) by (apply tokenizes_newline; [apply lex_tokenizes|constructor]).
  assert (H2 : tokenizes (a ++ LF :: b) ((lex a ++ [nl]) ++ lex b)) by (rewrite <- app_assoc; apply tokenizes_newline; apply lex_tokenizes).
  eapply same_mode; eauto; [eapply fits_cut; eauto|]. apply overflow_appends.
Qed.

Theorem cut_result_mode : forall dbg a b set ts, fits (a ++ LF :: b) -> parse dbg (a ++ LF :: b) = Ok set ->
  tokenizes a ts -> (forall before, ts <> before ++ [lit "o"]) ->
  parse dbg (a ++ [LF]) = Panic PanicIndex \/ exists set', parse dbg (a ++ [LF]) = Ok set' /\ front_set set set'.
Proof. intros dbg a b set ts Hf P Ha Ho. rewrite (cut_mode dbg a b) by congruence. eapply cut_result; eauto. Qed.

(** * Completed texts *)

Lemma use_tokens : tokenizes (lit "usemtl m") use.
Proof. apply tokenizes_iff. vm_compute. reflexivity. Qed.

Lemma complete_mode : forall dbg x y tx ty, fits ((x ++ y) ++ LF :: lit "usemtl m") -> tokenizes x tx -> tokenizes (x ++ y) (tx ++ ty) ->
  parse dbg (x ++ y) <> Panic PanicOverflow -> parse dbg (x ++ LF :: lit "usemtl m") = parse false (x ++ LF :: lit "usemtl m").
Proof.
  intros dbg x y tx ty Hf Hx Ht P. assert (Hf' : fits (x ++ y)) by (revert Hf; unfold fits; rewrite !app_length; lia).
  apply (same_mode dbg (x ++ y) _ (tx ++ ty) (tx ++ nl :: use)); auto.
  - now apply fits_shorter in Hf.
  - apply tokenizes_newline; auto. exact use_tokens.
  - intros C. now apply overflow_appends, overflow_use.
Qed.

Theorem error_viable_mode : forall dbg input e, fits (input ++ LF :: lit "usemtl m") -> parse dbg input = Err e ->
  exists x y z tx ty tz, input = x ++ y ++ z /\
    tokenizes x tx /\ tokenizes y ty /\ tokenizes z tz /\ tokenizes input (tx ++ ty ++ tz) /\
    fails_at (tx ++ ty ++ tz) (ty ++ tz) (err_kind e, err_message e) tz /\
    line_after x <= err_line_number e <= line_after x + 1 /\
    exists set, parse dbg (x ++ LF :: lit "usemtl m") = Ok set.
Proof.
  intros dbg input e Hf P. destruct (error_viable _ _ _ Hf P) as (x & y & z & tx & ty & tz & -> & Hx & Hy & Hz & Ht & Ha & Hl & Hs).
  exists x, y, z, tx, ty, tz. rewrite (complete_mode dbg x (y ++ z) tx (ty ++ tz)) by (auto; congruence).
  do 7 (split; [assumption || reflexivity|]). exact Hs.
Qed.

Theorem lines_viable_mode : forall dbg p z e ts, fits (p ++ LF :: z ++ LF :: lit "usemtl m") -> parse dbg (p ++ LF :: z) = Err e ->
  line_after p + 1 < err_line_number e -> tokenizes p ts -> (forall before, ts <> before ++ [lit "o"]) ->
  exists set, parse dbg (p ++ LF :: LF :: lit "usemtl m") = Ok set.
Proof.
  intros dbg p z e ts Hf P Hl Hp Ho. destruct (lines_viable _ _ _ _ _ Hf P Hl Hp Ho) as (set & K). exists set. rewrite <- K.
  replace (p ++ LF :: LF :: lit "usemtl m") with ((p ++ [LF]) ++ LF :: lit "usemtl m") by (rewrite <- app_assoc; reflexivity).
  apply (complete_mode dbg (p ++ [LF]) z (ts ++ [nl]) (lex z)).
  - rewrite <- !app_assoc. exact Hf.
  - apply tokenizes_newline; auto. constructor.
  - rewrite <- !app_assoc. apply tokenizes_newline; auto. apply lex_tokenizes.
  - rewrite <- app_assoc. cbn [app]. congruence.
Qed.

Theorem panic_viable_mode : forall dbg input, fits (input ++ LF :: lit "usemtl m") -> parse dbg input = Panic PanicIndex ->
  exists x rest tx ts done o, input = x ++ rest /\ tokenizes x tx /\ tokenizes rest ts /\ tokenizes input (tx ++ ts) /\ at_object_end ts /\
    reaches (tx ++ ts) done (Some o) ts /\ ~ drawable o /\
    exists set, parse dbg (x ++ LF :: lit "usemtl m") = Ok set.
Proof.
  intros dbg input Hf P. assert (Hf' : fits input) by (revert Hf; unfold fits; rewrite app_length; lia).
  assert (P' : parse false input = Panic PanicIndex).
  { destruct dbg; auto. rewrite <- debug_otherwise; auto. congruence. }
  destruct (panic_viable _ _ Hf P') as (x & y & tx & ty & done & o & -> & Hx & Hy & Ht & He & Hr & Hd & Hs).
  exists x, y, tx, ty, done, o. rewrite (complete_mode dbg x y tx ty) by (auto; congruence).
  do 7 (split; [assumption || reflexivity|]). exact Hs.
Qed.

(** The first overflow. *)
Lemma first_overflow : forall input k tx ts done n ss, fits (input ++ LF :: lit "usemtl m") -> length tx <= k -> tokenizes input (tx ++ ts) ->
  reaches (tx ++ ts) done (Some (n, ss)) ts -> overflows (counts_in done []) (counts_in done ss) ts ->
  exists x rest tx ts done n ss, input = x ++ rest /\ tokenizes x tx /\ tokenizes rest ts /\ tokenizes input (tx ++ ts) /\
    reaches (tx ++ ts) done (Some (n, ss)) ts /\ overflows (counts_in done []) (counts_in done ss) ts /\
    exists set, parse true (x ++ LF :: lit "usemtl m") = Ok set.
Proof.
  intros input. induction k as [|k IH]; intros tx ts done n ss Hf Hk Ht Hr Ho.
  all: destruct (tokenizes_split _ _ Ht _ _ eq_refl) as (x & y & -> & Hx & Hy).
  all: assert (Hf' : fits (x ++ LF :: lit "usemtl m")) by (now apply fits_shorter in Hf).
  all: destruct (complete_text _ _ _ _ _ _ Hr eq_refl Hx Hf') as (set & Ps).
  all: assert (Hd : parse true (x ++ LF :: lit "usemtl m") = Panic PanicOverflow \/ parse true (x ++ LF :: lit "usemtl m") = Ok set)
    by (destruct (debug_or _ Hf') as [E|E]; [now left|right; congruence]).
  all: destruct Hd as [Hd|Hd];
    [|exists x, y, tx, ts, done, n, ss; do 6 (split; [assumption || reflexivity|]); now exists set].
  all: apply debug_overflow_iff in Hd; auto; destruct Hd as (T & HT & Hd).
  all: rewrite (tokenizes_det _ _ _ HT (tokenizes_newline _ _ _ _ Hx use_tokens)) in Hd.
  all: apply overflow_use in Hd; destruct Hd as (done1 & n1 & ss1 & ts1 & R1 & O1).
  all: destruct (reaches_suffix _ _ _ _ R1) as (u & ->); destruct ts1 as [|t1 ts1]; [inversion O1|].
  - rewrite app_length in Hk. cbn in Hk. lia.
  - apply (IH u ((t1 :: ts1) ++ ts) done1 n1 ss1).
    + exact Hf.
    + rewrite app_length in Hk. cbn in Hk. lia.
    + now rewrite app_assoc.
    + rewrite app_assoc. apply reaches_appends; auto. discriminate.
    + now apply overflows_appends.
Qed.

Theorem overflow_viable : forall input, fits (input ++ LF :: lit "usemtl m") -> parse true input = Panic PanicOverflow ->
  exists x rest tx ts done n ss, input = x ++ rest /\ tokenizes x tx /\ tokenizes rest ts /\ tokenizes input (tx ++ ts) /\
    reaches (tx ++ ts) done (Some (n, ss)) ts /\ overflows (counts_in done []) (counts_in done ss) ts /\
    exists set, parse true (x ++ LF :: lit "usemtl m") = Ok set.
Proof.
  intros input Hf P. assert (Hf' : fits input) by (revert Hf; unfold fits; rewrite app_length; lia).
  apply debug_overflow_iff in P; auto. destruct P as (T & HT & done & n & ss & ts & Hr & Ho).
  destruct (reaches_suffix _ _ _ _ Hr) as (u & ->). eapply first_overflow; eauto.
Qed.
