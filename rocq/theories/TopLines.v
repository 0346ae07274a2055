(** Blank lines at the top and at the end of a text. *)
From Verif Require Import ObjModel ObjErrorSpec RewriteSpec LexerProofs TotalProofs ConsumeProofs TextProofs ObjTop ObjReach ObjUnique ObjExtend
  ObjFacts ObjMore ObjAccept ObjDebug ObjProps.
Local Open Scope list_scope.

(** * Tokens *)

Lemma blank_tokens : forall p input, blank_lines p ->
  lex (p ++ input) = repeat nl (count_occ ascii_dec p LF) ++ lex input.
Proof.
  intros p input (Hp & ts & Ht & HF). symmetry. apply tokenizes_iff.
  assert (E : ts = repeat nl (count_occ ascii_dec p LF)).
  { rewrite <- (count_nl_line _ _ Ht). clear - HF. induction HF as [|t ts -> HF IH]; [reflexivity|].
    rewrite count_nl_cons. cbn [repeat]. rewrite IH at 1. reflexivity. }
  rewrite <- E. destruct Hp as [->|(q & ->)].
  - apply tokenizes_iff in Ht. subst ts. apply lex_tokenizes.
  - pose proof (tokenizes_newline _ _ _ _ (lex_tokenizes q) tk_end) as K.
    pose proof (tokenizes_newline _ _ _ _ (lex_tokenizes q) (lex_tokenizes input)) as K'.
    rewrite <- app_assoc. cbn [app]. rewrite (tokenizes_det _ _ _ Ht K), <- app_assoc. exact K'.
Qed.

(** * OBJ *)

Lemma reaches_top : forall ts d c r, reaches ts d c r <-> reaches (nl :: ts) d c r.
Proof.
  intros ts d c r. split; intros H.
  - induction H; eauto using reaches. eapply reaches_start, libraries_blank; eauto.
  - remember (nl :: ts) as T eqn:E. induction H; subst; eauto using reaches.
    match goal with H : reads_libraries _ _ _ |- _ => inversion H as [? ? ? K|?|? K]; subst end.
    + eapply reaches_start; eauto.
    + exfalso. now apply (proj1 K).
Qed.

Lemma reaches_tops : forall n ts d c r, reaches ts d c r <-> reaches (repeat nl n ++ ts) d c r.
Proof. induction n as [|n IH]; intros; [reflexivity|]. cbn [repeat app]. now rewrite <- reaches_top. Qed.

Lemma file_tops : forall n ts f r, reads_file ts f r -> reads_file (repeat nl n ++ ts) f r.
Proof.
  induction n as [|n IH]; intros ts f r H; [exact H|]. cbn [repeat app]. apply IH in H. inversion H; subst.
  - eapply file_named; eauto. now apply libraries_blank.
  - eapply file_unnamed; eauto. now apply libraries_blank.
Qed.

Lemma overflow_tops : forall n ts, overflows_file ts <-> overflows_file (repeat nl n ++ ts).
Proof. intros n ts. unfold overflows_file. split; intros (d & m & ss & mid & H & K); exists d, m, ss, mid; split; auto; now apply (reaches_tops n ts). Qed.

Lemma line_after_app : forall a b, line_after (a ++ b) = count_occ ascii_dec a LF + line_after b.
Proof. intros a b. unfold line_after. rewrite count_occ_app. lia. Qed.

Lemma release_top : forall p input, fits (p ++ input) -> blank_lines p ->
  parse false (p ++ input) = later (count_occ ascii_dec p LF) (parse false input).
Proof.
  intros p input Hf Hp.
  assert (Hf' : fits input). { unfold fits in *. rewrite app_length in Hf. lia. }
  pose proof (blank_tokens p input Hp) as E. destruct (parse false input) as [set|e|x|] eqn:P; cbn [later].
  - apply parse_says_iff in P; auto. destruct P as (f & (ts & Ht & Hr) & Hd & ->). apply parse_says_iff; auto.
    exists f. split; auto. exists (repeat nl (count_occ ascii_dec p LF) ++ ts). split; [|now apply file_tops].
    apply tokenizes_iff. apply tokenizes_iff in Ht. now rewrite E, Ht.
  - apply error_iff in P; auto. destruct P as (x & y & z & tx & ty & tz & -> & Hx & Hy & Hz & Ht & Hfa & Hl).
    apply error_iff; auto. cbn [err_kind err_message err_line_number].
    exists (p ++ x), y, z, (repeat nl (count_occ ascii_dec p LF) ++ tx), ty, tz. rewrite <- !app_assoc.
    split; auto. split; [|split; [auto|split; [auto|split; [|split]]]].
    + apply tokenizes_iff. rewrite blank_tokens by auto. apply tokenizes_iff in Hx. now rewrite Hx.
    + apply tokenizes_iff. apply tokenizes_iff in Ht. now rewrite E, <- Ht.
    + destruct Hfa as [(d & m & ss & H & K)|(d & H & K)]; [left; exists d, m, ss|right; exists d]; split; auto; now apply reaches_tops.
    + now rewrite line_after_app, Hl.
  - apply panic_place in P; auto. destruct P as (-> & ts & d & o & rest & Ht & H & K). apply panic_place; auto. split; auto.
    exists (repeat nl (count_occ ascii_dec p LF) ++ ts), d, o, rest. split; [|split; auto; now apply reaches_tops].
    apply tokenizes_iff. apply tokenizes_iff in Ht. now rewrite E, Ht.
  - exfalso. revert P. apply (obj_terminates false input (lex input) (S (length (lex input)))); [apply lex_tokenizes|lia].
Qed.

Lemma obj_top : forall dbg p input, fits (p ++ input) -> blank_lines p ->
  parse dbg (p ++ input) = later (count_occ ascii_dec p LF) (parse dbg input).
Proof.
  intros [|] p input Hf Hp; [|now apply release_top].
  assert (Hf' : fits input). { unfold fits in *. rewrite app_length in Hf. lia. }
  destruct (parse_debug _ Hf) as [[Ho E]|[Ho E]], (parse_debug _ Hf') as [[Ho' E']|[Ho' E']];
    rewrite blank_tokens in Ho by auto; try (now rewrite <- overflow_tops in Ho).
  - now rewrite E, E'.
  - rewrite E, E'. now apply release_top.
Qed.

(** * A newline at the end *)

Definition rest_nl (rest : list bytes) : list bytes := match rest with [] => [] | _ => rest ++ [nl] end.

Lemma body_nl : forall base now ts ss rest, reads_body base now ts ss rest ->
  reads_body base now (ts ++ [nl]) ss (rest_nl rest).
Proof.
  intros base now ts ss rest H. induction H as [now ts He|now ts ss rest H IH|now ts s mid ss rest Hs H IH].
  - destruct ts as [|t ts]; cbn in *.
    + apply body_blank, body_end. exact I.
    + apply body_end. exact He.
  - now apply body_blank.
  - destruct (statement_extend [] _ _ _ _ _ Hs) as [K|(-> & K)].
    + eapply body_statement; eauto.
    + eapply body_statement; eauto. inversion H; subst.
      * apply body_end. exact I.
      * exfalso. eapply statement_end; [eassumption|exact I].
Qed.

Lemma objects_nl : forall now ts os rest, reads_objects now ts os rest -> rest = [] -> ts <> [] ->
  reads_objects now (ts ++ [nl]) os [].
Proof.
  intros now ts os rest H. induction H as [now ts|now n ts ss mid os rest Hb H IH]; intros Er Hne; [congruence|].
  cbn. eapply objects_more; [apply (body_nl _ _ _ _ _ Hb)|].
  destruct mid as [|t mid].
  - cbn. inversion H; subst. apply objects_end.
  - cbn [rest_nl]. apply IH; auto. discriminate.
Qed.

Lemma libraries_nl : forall ts libs rest, reads_libraries ts libs rest -> reads_libraries (ts ++ [nl]) libs (rest_nl rest).
Proof.
  intros ts libs rest H. induction H as [ts libs rest H IH|ts names mid libs rest Hl H IH|ts He].
  - now apply libraries_blank.
  - destruct (line_extend [] _ _ _ Hl) as [K|(-> & K)].
    + eapply libraries_line; eauto.
    + eapply libraries_line; eauto. inversion H; subst. now apply libraries_end.
  - destruct ts as [|t ts]; cbn.
    + now apply libraries_blank, libraries_end.
    + now apply libraries_end.
Qed.

Lemma file_nl : forall ts f, reads_file ts f [] -> reads_file (ts ++ [nl]) f [].
Proof.
  intros ts f H. inversion H as [ts' libs mid os rest Hl Ho|ts' libs mid ss mid' os rest Hl He Hb Ho]; subst.
  - pose proof (libraries_nl _ _ _ Hl) as K. destruct mid as [|t mid].
    + eapply file_named; eauto.
    + eapply file_named; eauto. eapply objects_nl; eauto. discriminate.
  - pose proof (libraries_nl _ _ _ Hl) as K. destruct mid as [|t mid]; [exfalso; apply He; exact I|].
    eapply file_unnamed; [exact K|exact He|exact (body_nl _ _ _ _ _ Hb)|].
    destruct mid' as [|t' mid'].
    + inversion Ho; subst. apply objects_end.
    + eapply objects_nl; eauto. discriminate.
Qed.

(** Where the text with the newline can be read to, the one without it can too. *)

Definition unextends {A} (R : list bytes -> A -> list bytes -> Prop) (a : list bytes) (x : A) (rest : list bytes) : Prop :=
  (exists r, rest = r ++ [nl] /\ R a x r) \/ rest = [].

Lemma optional_back : forall d a x rest, reads_optional d (a ++ [nl]) x rest ->
  exists r, rest = r ++ [nl] /\ reads_optional d a x r.
Proof.
  intros d a x rest H. destruct a as [|t a]; cbn in *; inversion H; subst.
  - exfalso. eapply nl_not_float; eauto.
  - exists []. split; auto. apply optional_eof.
  - exists a. split; auto. now apply optional_given.
  - exists (t :: a). split; auto. now apply optional_other.
Qed.

Lemma line_back : forall a names rest, reads_line (a ++ [nl]) names rest -> unextends reads_line a names rest.
Proof.
  intros a names rest H. inversion H as [? Hn|? ? Hn E]; subst.
  - exfalso. apply Hn. apply in_or_app. right. now left.
  - destruct (split_nl [] _ _ _ Hn E) as (a' & -> & E'). destruct a' as [|t a']; cbn in E'; inversion E'; subst.
    + now right.
    + left. exists a'. split; auto. now apply line_nl.
Qed.

Lemma refs_back : forall base now a rs rest, reads_refs base now (a ++ [nl]) rs rest -> unextends (reads_refs base now) a rs rest.
Proof.
  intros base now a. induction a as [|t a IH]; intros rs rest H; cbn in *; inversion H; subst.
  - now right.
  - exfalso. eapply nl_not_ref; eauto.
  - left. exists a. split; auto. now apply refs_stop.
  - match goal with K : reads_refs _ _ (a ++ _) _ _ |- _ => destruct (IH _ _ K) as [(r' & -> & K')| ->] end; [|now right].
    left. exists r'. split; auto. now apply refs_more.
Qed.

Ltac not_nl := let H := fresh in intros H; cbn in H; repeat destruct H as [H|H];
  try contradiction; try (vm_compute in H; discriminate);
  subst; first [ eapply nl_not_float; eassumption | eapply nl_not_smoothing; eassumption ].

Lemma statement_back : forall base now a s rest, reads_statement base now (a ++ [nl]) s rest ->
  unextends (reads_statement base now) a s rest.
Proof.
  intros base now a s rest H.
  remember (a ++ [nl]) as ts eqn:E. destruct H.
  - destruct (split_nl [] [lit "v"; tx; ty; tz] ts a) as (a' & -> & ->); [not_nl|exact E|].
    destruct (optional_back _ _ _ _ H2) as (a'' & -> & K). left. exists a''. split; auto. now apply reads_v.
  - destruct (split_nl [] [lit "vt"; tu] ts a) as (a' & -> & ->); [not_nl|exact E|].
    destruct (optional_back _ _ _ _ H0) as (a'' & -> & K).
    destruct (optional_back _ _ _ _ H1) as (a3 & -> & K'). left. exists a3. split; auto. cbn. eapply reads_vt; eauto.
  - destruct (split_nl [] [lit "vn"; tx; ty; tz] rest a) as (a' & -> & ->); [not_nl|exact E|].
    left. exists a'. split; auto. now apply reads_vn.
  - destruct (split_nl [] [lit "g"] ts a) as (a' & -> & ->); [not_nl|exact E|].
    destruct (line_back _ _ _ H) as [(a'' & -> & K)| ->]; [left; exists a''; split; auto; now apply reads_g|now right].
  - destruct (split_nl [] [lit "s"; t] rest a) as (a' & -> & ->); [not_nl|exact E|].
    left. exists a'. split; auto. now apply reads_s.
  - destruct (split_nl [] [lit "usemtl"] (name :: rest) a) as (a' & -> & E'); [not_nl|exact E|].
    destruct a' as [|t a']; cbn in E'; inversion E'; subst; [now right|].
    left. exists a'. split; auto. apply reads_usemtl.
  - destruct (split_nl [] [lit "p"] ts a) as (a' & -> & ->); [not_nl|exact E|].
    destruct (line_back _ _ _ H) as [(a'' & -> & K)| ->]; [left; exists a''; split; auto; cbn; eapply reads_p; eauto|now right].
  - destruct (split_nl [] [lit "l"] ts a) as (a' & -> & ->); [not_nl|exact E|].
    destruct (refs_back _ _ _ _ _ H) as [(a'' & -> & K)| ->]; [left; exists a''; split; auto; cbn; eapply reads_l; eauto|now right].
  - destruct (split_nl [] [lit "f"] ts a) as (a' & -> & ->); [not_nl|exact E|].
    destruct (refs_back _ _ _ _ _ H) as [(a'' & -> & K)| ->]; [left; exists a''; split; auto; cbn; eapply reads_f; eauto|now right].
Qed.

Lemma libraries_back : forall ts libs rest, reads_libraries ts libs rest -> forall a, ts = a ++ [nl] ->
  (exists r, rest = r ++ [nl] /\ r <> [] /\ reads_libraries a libs r) \/ rest = [].
Proof.
  intros ts libs rest H. induction H as [ts libs rest H IH|ts names mid libs rest Hl H IH|ts He]; intros a E; subst.
  - destruct a as [|t a]; cbn in E; inversion E; subst.
    + right. inversion H; reflexivity.
    + destruct (IH a eq_refl) as [(r & -> & Hr & K)| ->]; [left|now right]. exists r. split; auto. split; auto. now apply libraries_blank.
  - destruct a as [|t a]; cbn in E; inversion E; subst. destruct (line_back _ _ _ Hl) as [(r & -> & K)| ->].
    + destruct (IH r eq_refl) as [(r' & -> & Hr & K')| ->]; [left|now right]. exists r'. split; auto. split; auto.
      eapply libraries_line; eauto.
    + right. inversion H; reflexivity.
  - destruct a as [|t a]; cbn in He; [now destruct He|]. left. exists (t :: a). split; auto. split; [discriminate|]. now apply libraries_end.
Qed.

Lemma reaches_back : forall a d c rest, reaches (a ++ [nl]) d c rest ->
  (exists r, rest = r ++ [nl] /\ (c = None -> r <> []) /\ reaches a d c r) \/ rest = [].
Proof.
  intros a d c rest H. induction H as [libs rest H|rest H IH He|done name rest H IH|done o rest H IH|done name ss s mid rest H IH Hs|done o rest H IH He Hd].
  - destruct (libraries_back _ _ _ H a eq_refl) as [(r & -> & Hr & K)| ->]; [left|now right]. exists r. repeat split; auto. eapply reaches_start; eauto.
  - destruct IH as [(r & -> & Hr & K)| ->]; [left|now right]. exists r. split; auto. split; [discriminate|]. apply reaches_unnamed; auto.
    destruct r as [|t r]; [exfalso; now apply Hr|exact He].
  - destruct IH as [(r & E & Hr & K)|E]; [|discriminate].
    destruct r as [|t1 r]; [discriminate|]. destruct r as [|t2 r]; [discriminate|]. destruct r as [|t3 r]; cbn in E; inversion E; subst; [now right|].
    left. exists r. split; auto. split; [discriminate|]. now apply reaches_named.
  - destruct IH as [(r & E & Hr & K)|E]; [|discriminate].
    destruct r as [|t r]; cbn in E; inversion E; subst; [now right|]. left. exists r. split; auto. split; [discriminate|]. now apply reaches_blank.
  - destruct IH as [(r & -> & Hr & K)| ->].
    + destruct (statement_back _ _ _ _ _ Hs) as [(r' & -> & K')| ->]; [left|now right]. exists r'. split; auto. split; [discriminate|].
      eapply reaches_statement; eauto.
    + exfalso. eapply statement_end; [exact Hs|exact I].
  - destruct IH as [(r & -> & Hr & K)| ->]; [left|now right]. exists r. split; auto.
    destruct r as [|t r]; [discriminate He|]. split; [discriminate|]. now apply reaches_end.
Qed.

Lemma nl_not_low : forall now, ~ too_low now nl.
Proof. intros now (z & H & _). vm_compute in H. discriminate. Qed.

Lemma nl_not_ref_low : forall base now, ~ ref_too_low base now nl.
Proof.
  intros base now H. assert (Hp : forall ps, parts_of nl ps -> ps = [nl]) by (intros ps K; apply parts_split in K; exact K).
  destruct H as [p ps K L|p q ps K|p q r ps K]; apply Hp in K; inversion K; subst. eapply nl_not_low; eauto.
Qed.

Lemma Forall2_not_in : forall A B (R : A -> B -> Prop) x l l', (forall y, ~ R x y) -> Forall2 R l l' -> ~ In x l.
Proof. intros A B R x l l' Hx H. induction H as [|a b l l' Hab H IH]; cbn; [tauto|]. intros [->|K]; [eapply Hx; eauto|auto]. Qed.

Lemma overflow_back : forall base now a, overflows base now (a ++ [nl]) -> overflows base now a.
Proof.
  assert (K : forall k toks t rest a, k <> nl -> ~ In nl toks -> t <> nl -> k :: toks ++ t :: rest = a ++ [nl] ->
    exists rest', a = k :: toks ++ t :: rest').
  { intros k toks t rest a Hk Ht Hn E. destruct (split_nl [] (k :: toks ++ [t]) rest a) as (a' & -> & _).
    - intros [H|H]; [auto|]. apply in_app_or in H. destruct H as [H|[H|[]]]; auto.
    - cbn [app]. rewrite <- app_assoc. exact E.
    - exists a'. cbn [app]. now rewrite <- app_assoc. }
  intros base now a H. remember (a ++ [nl]) as T eqn:E. destruct H as [toks ks t rest HF Hl|toks ks t rest HF Hl|toks ks t rest HF Hl].
  - destruct (K (lit "p") toks t rest a) as (rest' & ->); [discriminate| | |exact E|eapply overflows_p; eauto].
    + eapply Forall2_not_in; [|exact HF]. intros k [L _]. revert L. apply nl_not_number.
    + intros ->. eapply nl_not_low; eauto.
  - destruct (K (lit "l") toks t rest a) as (rest' & ->); [discriminate| | |exact E|eapply overflows_l; eauto].
    + eapply Forall2_not_in; [|exact HF]. intros r. apply nl_not_ref.
    + intros ->. eapply nl_not_ref_low; eauto.
  - destruct (K (lit "f") toks t rest a) as (rest' & ->); [discriminate| | |exact E|eapply overflows_f; eauto].
    + eapply Forall2_not_in; [|exact HF]. intros r. apply nl_not_ref.
    + intros ->. eapply nl_not_ref_low; eauto.
Qed.

Lemma overflow_end : forall base now, ~ overflows base now [].
Proof. intros base now H. inversion H. Qed.

Lemma file_overflow_back : forall a, overflows_file (a ++ [nl]) -> overflows_file a.
Proof.
  intros a (d & n & ss & ts & H & K). destruct (reaches_back _ _ _ _ H) as [(r & -> & _ & Hr)| ->].
  - exists d, n, ss, r. split; auto. now apply overflow_back.
  - exfalso. eapply overflow_end; eauto.
Qed.

Lemma obj_final : forall dbg input set, fits (input ++ [LF]) -> parse dbg input = Ok set -> parse dbg (input ++ [LF]) = Ok set.
Proof.
  intros dbg input set Hf Hok.
  assert (Hf' : fits input). { unfold fits in *. rewrite app_length in Hf. lia. }
  assert (E : lex (input ++ [LF]) = lex input ++ [nl]).
  { symmetry. apply tokenizes_iff. apply (tokenizes_newline _ _ _ _ (lex_tokenizes input) tk_end). }
  assert (K : parse false (input ++ [LF]) = Ok set).
  { pose proof (parse_debug_ok _ _ _ Hok) as P. apply parse_says_iff in P; auto. destruct P as (f & (ts & Ht & Hr) & Hd & ->).
    apply parse_says_iff; auto. exists f. split; auto. exists (ts ++ [nl]). split; [|now apply file_nl].
    apply tokenizes_iff. apply tokenizes_iff in Ht. now rewrite E, Ht. }
  destruct dbg; [|exact K]. destruct (parse_debug _ Hf) as [[Ho P]|[Ho P]]; [|congruence].
  exfalso. rewrite E in Ho. apply file_overflow_back in Ho. destruct (parse_debug _ Hf') as [[_ P']|[Ho' _]]; [congruence|auto].
Qed.
