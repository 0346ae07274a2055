(** A line that starts with an unknown word makes the whole file unacceptable. *)
From Verif Require Import ObjModel ObjErrorSpec LexerProofs TextProofs ObjAccept ObjTop ObjUnique ObjFacts ObjExtend ObjMore ObjProps.
Local Open Scope list_scope.

Definition unknown_word (w : bytes) : Prop := ~ In w keywords /\ w <> nl /\ w <> lit "o" /\ w <> lit "mtllib".

Definition line_start (ts : list bytes) : Prop := ts = [] \/ exists ts', ts = ts' ++ [nl].

Section Unknown.
Context (w : bytes) (Hw : unknown_word w).

Definition has_unknown (ts : list bytes) : Prop := exists a b, ts = a ++ w :: b /\ line_start a.

(** Nothing but the last token is a newline. *)
Definition within_line (used : list bytes) : Prop := forall a b, used = a ++ nl :: b -> b = [].

Lemma within_cons : forall t used, t <> nl -> within_line used -> within_line (t :: used).
Proof.
  intros t used Ht H a b E. destruct a as [|x a]; cbn in E; injection E as E1 E2; [contradiction|]. eauto.
Qed.

Lemma within_none : within_line [].
Proof. intros a b E. destruct a; discriminate. Qed.

Lemma within_one : forall t, within_line [t].
Proof. intros t a b E. destruct a as [|x a]; cbn in E; injection E as E1 E2; auto. destruct a; discriminate. Qed.

Lemma line_used : forall ts names rest, reads_line ts names rest -> exists used, ts = used ++ rest /\ within_line used.
Proof.
  assert (K : forall names l, ~ In nl names -> within_line l -> within_line (names ++ l)).
  { induction names as [|n names IH]; intros l H Hl; auto. cbn. apply within_cons; [|apply IH; auto]; intros E; apply H; cbn; auto. }
  intros ts names rest H. destruct H as [names H|names rest H].
  - exists names. rewrite app_nil_r. split; auto. rewrite <- (app_nil_r names). apply K; auto. apply within_none.
  - exists (names ++ [nl]). rewrite <- app_assoc. split; auto. apply K; auto. apply within_one.
Qed.

Lemma refs_used : forall base now ts rs rest, reads_refs base now ts rs rest -> exists used, ts = used ++ rest /\ within_line used.
Proof.
  intros base now ts rs rest H. induction H as [|t rest Hn|t r ts rs rest Hv H (used & -> & IH)].
  - exists []. split; auto. apply within_none.
  - exists [t]. split; auto. apply within_one.
  - exists (t :: used). split; auto. apply within_cons; auto. intros ->. eapply nl_not_ref; eauto.
Qed.

Lemma optional_used : forall d ts x rest, reads_optional d ts x rest -> exists used, ts = used ++ rest /\ within_line used /\ ~ In nl used.
Proof.
  intros d ts x rest H. destruct H as [t x rest H|t rest H|].
  - exists [t]. split; auto. split; [apply within_one|]. intros [->|[]]. eapply nl_not_float; eauto.
  - exists []. split; auto. split; [apply within_none|]. auto.
  - exists []. split; auto. split; [apply within_none|]. auto.
Qed.

Lemma float_not_nl : forall t x, float_token t x -> t <> nl.
Proof. intros t x H ->. eapply nl_not_float; eauto. Qed.

Lemma within_app : forall a b, ~ In nl a -> within_line b -> within_line (a ++ b).
Proof.
  induction a as [|n a IH]; intros l H Hl; auto. cbn. apply within_cons; [|apply IH; auto]; intros E; apply H; cbn; auto.
Qed.

Lemma statement_used : forall base now ts s rest, reads_statement base now ts s rest ->
  exists k used, ts = k :: used ++ rest /\ In k keywords /\ within_line (k :: used).
Proof.
  intros base now ts s rest H.
  assert (F := float_not_nl).
  assert (C : forall k used, k <> nl -> In k keywords -> within_line used -> exists k' used', k :: used ++ rest = k' :: used' ++ rest /\ In k' keywords /\ within_line (k' :: used')).
  { intros k used Hk Hi Hu. exists k, used. split; auto. split; auto. now apply within_cons. }
  destruct H as [tx ty tz ts x y z w0 rest Hx Hy Hz Ho|tu ts u v mid w0 rest Hu Ho1 Ho2|tx ty tz x y z rest Hx Hy Hz|ts names rest Hl
    |t n rest Ht|name rest|ts toks ks rest Hl HF Hne|ts rs rest Hr Hlen Hf|ts rs rest Hr Hlen Hf].
  - destruct (optional_used _ _ _ _ Ho) as (used & -> & Hu & _).
    apply (C (lit "v") (tx :: ty :: tz :: used)); [discriminate|cbn; auto 10|]. repeat (apply within_cons; eauto).
  - destruct (optional_used _ _ _ _ Ho1) as (u1 & -> & _ & Hn). destruct (optional_used _ _ _ _ Ho2) as (u2 & -> & H2 & _).
    rewrite app_assoc. apply (C (lit "vt") (tu :: u1 ++ u2)); [discriminate|cbn; auto 10|]. apply within_cons; eauto. now apply within_app.
  - apply (C (lit "vn") [tx; ty; tz]); [discriminate|cbn; auto 10|]. do 2 (apply within_cons; eauto). apply within_one.
  - destruct (line_used _ _ _ Hl) as (used & -> & Hu). apply C; auto; [discriminate|cbn; auto 10].
  - apply (C (lit "s") [t]); [discriminate|cbn; auto 10|apply within_one].
  - apply (C (lit "usemtl") [name]); [discriminate|cbn; auto 10|apply within_one].
  - destruct (line_used _ _ _ Hl) as (used & -> & Hu). apply C; auto; [discriminate|cbn; auto 10].
  - destruct (refs_used _ _ _ _ _ Hr) as (used & -> & Hu). apply C; auto; [discriminate|cbn; auto 10].
  - destruct (refs_used _ _ _ _ _ Hr) as (used & -> & Hu). apply C; auto; [discriminate|cbn; auto 10].
Qed.

(** Behind tokens of which only the last may be a newline. *)
Lemma unknown_behind : forall k used mid, k <> w -> within_line (k :: used) -> has_unknown (k :: used ++ mid) -> has_unknown mid.
Proof.
  clear Hw. intros k used mid Hk Hu (a & b & E & Ha).
  destruct Ha as [->|(a' & ->)]; [cbn in E; injection E as E _; contradiction|].
  change (k :: used ++ mid) with ((k :: used) ++ mid) in E. apply app_eq_app in E as (l & [[E1 E2]|[E1 E2]]).
  - destruct l as [|x l].
    + exists [], b. split; [cbn in *; congruence|]. now left.
    + cbn in E2. injection E2 as -> E2. rewrite <- app_assoc in E1. cbn in E1. apply Hu in E1. discriminate.
  - exists l, b. split; auto. destruct l as [|x l _] using rev_ind; [now left|]. right. rewrite app_assoc in E1.
    apply app_inj_tail in E1 as [_ ->]. now exists l.
Qed.

Lemma unknown_blank : forall ts, has_unknown (nl :: ts) -> has_unknown ts.
Proof. intros ts. apply (unknown_behind nl []); [|apply within_one]. intros E. symmetry in E. revert E. apply Hw. Qed.

Lemma not_keyword : forall k, In k keywords -> k <> w.
Proof. intros k H E. rewrite E in H. exact (proj1 Hw H). Qed.

Lemma body_unknown : forall base now ts ss rest, reads_body base now ts ss rest -> has_unknown ts -> has_unknown rest.
Proof.
  intros base now ts ss rest H. induction H as [now ts He|now ts ss rest H IH|now ts s mid ss rest Hs H IH]; intros K; auto.
  - apply IH. now apply unknown_blank.
  - apply IH. destruct (statement_used _ _ _ _ _ Hs) as (k & used & -> & Hk & Hu).
    revert K. apply unknown_behind; auto. now apply not_keyword.
Qed.

Lemma objects_unknown : forall now ts os rest, reads_objects now ts os rest -> has_unknown ts -> has_unknown rest.
Proof.
  intros now ts os rest H. induction H as [now ts|now name ts ss mid os rest Hb H IH]; intros K; auto.
  apply IH. eapply body_unknown; [exact Hb|]. destruct Hw as (_ & W1 & W2 & _).
  apply (unknown_behind (lit "o") [name]) in K; [|congruence|apply within_cons; [discriminate|apply within_one]].
  now apply unknown_blank.
Qed.

Lemma libraries_unknown : forall ts libs rest, reads_libraries ts libs rest -> has_unknown ts -> has_unknown rest.
Proof.
  intros ts libs rest H. induction H as [ts libs rest H IH|ts names mid libs rest Hl H IH|ts He]; intros K; auto.
  - apply IH. now apply unknown_blank.
  - apply IH. destruct (line_used _ _ _ Hl) as (used & -> & Hu). destruct Hw as (_ & _ & _ & W).
    apply (unknown_behind (lit "mtllib") used); [congruence|apply within_cons; [discriminate|exact Hu]|exact K].
Qed.

Lemma file_unknown : forall ts f, reads_file ts f [] -> ~ has_unknown ts.
Proof.
  intros ts f H K. assert (E : has_unknown []).
  { inversion H; subst.
    - eapply objects_unknown; [eauto|]. eapply libraries_unknown; eauto.
    - eapply objects_unknown; [eauto|]. eapply body_unknown; [eauto|]. eapply libraries_unknown; eauto. }
  destruct E as (a & b & E & _). destruct a; discriminate.
Qed.
End Unknown.

Theorem unknown_rejected : forall dbg input a w b set, fits input -> tokenizes input (a ++ w :: b) -> line_start a ->
  unknown_word w -> parse dbg input <> Ok set.
Proof.
  intros dbg input a w b set Hf Ht Ha Hw Hok. apply parse_debug_ok, parse_says_iff in Hok; auto.
  destruct Hok as (f & (ts & Ht' & Hr) & _). assert (ts = a ++ w :: b) by (apply tokenizes_iff in Ht, Ht'; congruence). subst ts.
  apply (file_unknown w Hw _ _ Hr). exists a, b. auto.
Qed.

(** The statements of free-form geometry in the OBJ format. *)
Definition free_form : list bytes :=
  [lit "vp"; lit "cstype"; lit "deg"; lit "bmat"; lit "step"; lit "curv"; lit "curv2"; lit "surf"; lit "parm"; lit "trim";
   lit "hole"; lit "scrv"; lit "sp"; lit "end"; lit "con"; lit "bsp"; lit "bzp"; lit "cdc"; lit "cdp"; lit "res"].

Theorem free_form_rejected : forall dbg before w after set, fits (before ++ w ++ after) ->
  before = [] \/ (exists before', before = before' ++ [LF]) -> In w free_form -> starts_with (fun c => ~ word_byte c) after ->
  parse dbg (before ++ w ++ after) <> Ok set.
Proof.
  intros dbg before w after set Hf Hb Hw Ha.
  assert (W : unknown_word w /\ w <> [] /\ Forall word_byte w).
  { assert (U : forallb (fun w => negb (existsb (bytes_eqb w) (nl :: lit "o" :: lit "mtllib" :: keywords)) && negb (bytes_eqb w [])
        && forallb (fun c => (97 <=? N_of_ascii c) || ((50 <=? N_of_ascii c) && (N_of_ascii c <=? 50)))%N w) free_form = true) by reflexivity.
    rewrite forallb_forall in U. apply U in Hw. apply andb_prop in Hw as [Hw W3]. apply andb_prop in Hw as [W1 W2].
    apply negb_true_iff in W1, W2.
    assert (N : forall x, In x (nl :: lit "o" :: lit "mtllib" :: keywords) -> w <> x).
    { intros x Hx ->. assert (T : existsb (bytes_eqb x) (nl :: lit "o" :: lit "mtllib" :: keywords) = true).
      { apply existsb_exists. exists x. split; auto. now apply bytes_eqb_eq. } congruence. }
    split; [|split].
    - split; [intros K; eapply N; [|reflexivity]; do 3 right; exact K|].
      repeat split; apply N; cbn; auto.
    - intros ->. discriminate.
    - apply Forall_forall. intros c Hc. rewrite forallb_forall in W3. apply W3 in Hc.
      unfold word_byte, separator, line_end. repeat split; [intros [K|[K|K]]|intros [K|K]|intros K]; rewrite K in Hc; vm_compute in Hc; discriminate. }
  destruct W as (Wu & Wn & Wb).
  assert (T : tokenizes (w ++ after) (w :: lex after)) by (constructor; auto; apply lex_tokenizes).
  destruct Hb as [->|(before' & ->)].
  - apply (unknown_rejected dbg (w ++ after) [] w (lex after)); auto. now left.
  - rewrite <- app_assoc in *. cbn [app] in *. apply (unknown_rejected dbg _ (lex before' ++ [nl]) w (lex after)); auto; [|right; eauto].
    rewrite <- app_assoc. cbn [app]. apply tokenizes_newline; auto. apply lex_tokenizes.
Qed.
