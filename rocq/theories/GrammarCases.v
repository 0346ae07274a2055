(** Cases of the grammars in GRAMMAR.md. *)
From Verif Require Import ObjModel MtlModel NumberProofs ObjTop ObjWrite ExampleText GrammarSpec GrammarProofs MtlGrammar.
Local Open Scope char_scope.
Local Open Scope list_scope.

(** * Checking words *)

Definition digit_b (c : byte) : bool := match RustStd.digit_val c with Some _ => true | None => false end.
Definition letter_b (c : byte) : bool :=
  let n := N_of_ascii c in ((97 <=? n) && (n <=? 122) || (65 <=? n) && (n <=? 90))%N.
Definition digits_b (s : bytes) : bool := match s with [] => false | _ => forallb digit_b s end.
Definition number_b (s : bytes) : bool :=
  digits_b s || match s with c :: d => Ascii.eqb c "-" && digits_b d | [] => false end.
Definition float_b (s : bytes) : bool :=
  existsb (fun i => number_b (firstn i s) && match skipn i s with c :: b => Ascii.eqb c "." && digits_b b | [] => false end)
    (seq 0 (List.length s)).
Definition mtl_float_b (s : bytes) : bool :=
  existsb (fun i => digits_b (firstn i s) && match skipn i s with c :: b => Ascii.eqb c "." && digits_b b | [] => false end)
    (seq 0 (List.length s)).
Definition string_b (s : bytes) : bool :=
  match s with c :: r => letter_b c && forallb (fun d => digit_b d || letter_b d) r | [] => false end.
Definition modest_b (s : bytes) : bool := negb (existsb (Ascii.eqb "-") s) && (Nat.leb (List.length s) 18).

Lemma digit_ok : forall c, digit_b c = true -> Digit c.
Proof.
  intros c H. unfold digit_b in H. destruct (RustStd.digit_val c) as [d|] eqn:E; [|discriminate].
  exists d. now apply digit_val_digit.
Qed.

Lemma letter_ok : forall c, letter_b c = true -> Letter c.
Proof.
  intros c H. unfold letter_b in H. cbv zeta in H. apply orb_prop in H as [H|H]; apply andb_prop in H as [H1 H2];
    apply N.leb_le in H1, H2; [left|right]; lia.
Qed.

Lemma digits_ok : forall s, digits_b s = true -> Digits s.
Proof.
  intros s H. unfold digits_b in H. destruct s as [|c s]; [discriminate|]. split; [discriminate|].
  apply Forall_forall. intros d Hd. apply digit_ok. rewrite forallb_forall in H. auto.
Qed.

Lemma number_ok : forall s, number_b s = true -> Number s.
Proof.
  intros s H. apply orb_prop in H as [H|H]; [exists s; split; auto; now apply digits_ok|].
  destruct s as [|c d]; [discriminate|]. apply andb_prop in H as [H1 H2]. apply Ascii.eqb_eq in H1. subst c.
  exists d. split; auto. now apply digits_ok.
Qed.

Lemma float_ok : forall s, float_b s = true -> Float s.
Proof.
  intros s H. apply existsb_exists in H as (i & _ & H). apply andb_prop in H as [H1 H2].
  destruct (skipn i s) as [|c b] eqn:E; [discriminate|]. apply andb_prop in H2 as [H2 H3]. apply Ascii.eqb_eq in H2. subst c.
  exists (firstn i s), b. split; [now apply number_ok|]. split; [now apply digits_ok|]. rewrite <- E. symmetry. apply firstn_skipn.
Qed.

Lemma mtl_float_ok : forall s, mtl_float_b s = true -> MtlFloat s.
Proof.
  intros s H. apply existsb_exists in H as (i & _ & H). apply andb_prop in H as [H1 H2].
  destruct (skipn i s) as [|c b] eqn:E; [discriminate|]. apply andb_prop in H2 as [H2 H3]. apply Ascii.eqb_eq in H2. subst c.
  exists (firstn i s), b. split; [now apply digits_ok|]. split; [now apply digits_ok|]. rewrite <- E. symmetry. apply firstn_skipn.
Qed.

Lemma string_ok : forall s, string_b s = true -> String_ s.
Proof.
  intros s H. destruct s as [|c r]; [discriminate|]. apply andb_prop in H as [H1 H2]. exists [c], r. split; auto.
  split; [discriminate|]. split; [constructor; [now apply letter_ok|constructor]|].
  apply Forall_forall. intros d Hd. rewrite forallb_forall in H2. apply H2, orb_prop in Hd as [Hd|Hd]; [left; now apply digit_ok|right; now apply letter_ok].
Qed.

Lemma digits_bound : forall s n, digits s n -> (n < 10 ^ N.of_nat (List.length s))%N.
Proof.
  intros s n H. induction H as [|s n c d H IH Hd]; [reflexivity|]. rewrite app_length, Nat.add_comm. cbn [List.length Nat.add].
  rewrite Nat2N.inj_succ, N.pow_succ_r'. assert (d < 10)%N by (destruct Hd; reflexivity). lia.
Qed.

Lemma modest_ok : forall s, modest_b s = true -> modest s.
Proof.
  intros s H. apply andb_prop in H as [H1 H2]. apply negb_true_iff in H1. apply Nat.leb_le in H2. split.
  - intros K. assert (T : existsb (Ascii.eqb "-") s = true) by (apply existsb_exists; exists "-"; auto). congruence.
  - intros a b c n -> Hn. rewrite !app_length in H2. apply digits_bound in Hn. eapply N.lt_le_trans; [exact Hn|].
    transitivity (10 ^ 18)%N; [|vm_compute; discriminate]. apply N.pow_le_mono_r; [discriminate|]. lia.
Qed.

Lemma forall_ok : forall (P : bytes -> Prop) b, (forall s, b s = true -> P s) -> forall ws, forallb b ws = true -> Forall P ws.
Proof. intros P b K ws H. apply Forall_forall. intros w Hw. rewrite forallb_forall in H. auto. Qed.

(** * Checking files *)

(** Words between single spaces; lines between [|]. *)
Fixpoint split_at (c : byte) (s : bytes) : list bytes :=
  match s with
  | [] => [[]]
  | d :: s' => if Ascii.eqb d c then [] :: split_at c s'
               else match split_at c s' with w :: ws => (d :: w) :: ws | [] => [[d]] end
  end.

Definition lines_of (s : string) : list line := map (split_at " ") (split_at "|" (lit s)).

Lemma statements_part : forall ls, Forall (fun l => AnyVertex l \/ Element l \/ SmoothingGroup l) ls -> star (alt (single AnyVertex) AnyElement) ls.
Proof.
  intros ls H. induction H as [|l ls H _ IH]; [constructor|]. change (l :: ls) with ([l] ++ ls). constructor; auto.
  destruct H as [H|[H|H]]; [left; now exists l| |]; right.
  - left. rewrite <- (app_nil_r [l]). constructor; [now exists l|constructor].
  - right. exists [l], []. split; [now exists l|]. split; [constructor|now rewrite app_nil_r].
Qed.

Lemma statements_body : forall ls, Forall Statement ls -> ObjectBody ls.
Proof.
  intros ls H. induction H as [|l ls H _ (a & b & Ha & Hb & ->)]; [exists [], []; repeat split; constructor|].
  destruct H as [H|[H|[H|H]]].
  - exists (l :: a), b. split; auto. change (l :: a) with ([l] ++ a). constructor; auto. left. now exists l.
  - exists (l :: a), b. split; auto. change (l :: a) with ([l] ++ a). constructor; auto. right. left.
    rewrite <- (app_nil_r [l]). constructor; [now exists l|constructor].
  - exists (l :: a), b. split; auto. change (l :: a) with ([l] ++ a). constructor; auto. right. right.
    exists [l], []. split; [now exists l|]. split; [constructor|now rewrite app_nil_r].
  - exists [], ((l :: a) ++ b). split; [constructor|]. split; auto. constructor; auto. exists [l], a. split; [now exists l|]. auto.
Qed.

Lemma objects_set : forall os ls, object_list os ls -> star Object ls.
Proof.
  intros os ls H. induction H as [|w body os ls Hw Hb H IH]; [constructor|].
  change ([lit "o"; w] :: body ++ ls) with (([lit "o"; w] :: body) ++ ls). constructor; auto.
  exists [[lit "o"; w]], body. split; [exists [lit "o"; w]; split; auto; now exists w|]. split; auto. now apply statements_body.
Qed.

Definition ref_b (n : nat) (w : bytes) : bool :=
  match n, split_at "/" w with
  | 1, [a] => number_b a
  | 2, [a; b] => number_b a && number_b b
  | 3, [a; []; b] => number_b a && number_b b
  | 4, [a; b; c] => number_b a && number_b b && number_b c
  | _, _ => false
  end.

Definition statement_b (l : line) : bool :=
  match l with
  | k :: ws =>
      if bytes_eqb k (lit "v") then forallb float_b ws && ((Nat.eqb (List.length ws) 3) || (Nat.eqb (List.length ws) 4))
      else if bytes_eqb k (lit "vt") || bytes_eqb k (lit "vp") then
        forallb float_b ws && ((Nat.eqb (List.length ws) 1) || (Nat.eqb (List.length ws) 2) || (Nat.eqb (List.length ws) 3))
      else if bytes_eqb k (lit "vn") then forallb float_b ws && (Nat.eqb (List.length ws) 3)
      else if bytes_eqb k (lit "p") then forallb number_b ws && negb (Nat.eqb (List.length ws) 0)
      else if bytes_eqb k (lit "l") then (forallb (ref_b 1) ws || forallb (ref_b 2) ws) && (Nat.leb 3 (List.length ws))
      else if bytes_eqb k (lit "f") then
        (forallb (ref_b 1) ws || forallb (ref_b 2) ws || forallb (ref_b 3) ws || forallb (ref_b 4) ws) && (Nat.leb 3 (List.length ws))
      else if bytes_eqb k (lit "g") then forallb string_b ws
      else if bytes_eqb k (lit "s") then match ws with [w] => bytes_eqb w (lit "off") || digits_b w | _ => false end
      else false
  | [] => false
  end.

Lemma split_join : forall c s, exists w ws, split_at c s = w :: ws /\ s = w ++ flat_map (fun x => c :: x) ws.
Proof.
  intros c s. induction s as [|d s (w & ws & E & IH)]; [exists [], []; auto|]. cbn [split_at].
  destruct (Ascii.eqb d c) eqn:Ec.
  - apply Ascii.eqb_eq in Ec. subst d. exists [], (split_at c s). split; auto. rewrite E. cbn. now rewrite IH at 1.
  - rewrite E. exists (d :: w), ws. split; auto. cbn. now rewrite IH at 1.
Qed.

Lemma ref_ok : forall n w, ref_b n w = true ->
  match n with 1 => V w | 2 => VT w | 3 => VN w | 4 => VTN w | _ => False end.
Proof.
  intros n w H. unfold ref_b in H. destruct (split_join "/" w) as (x & ws & E & J). rewrite E in H. subst w.
  assert (N := number_ok).
  destruct n as [|[|[|[|[|n]]]]]; try discriminate.
  - destruct ws as [|y ws]; [|discriminate]. cbn [flat_map]. rewrite app_nil_r. now apply N.
  - destruct ws as [|y [|z ws]]; try discriminate. apply andb_prop in H as [H1 H2]. exists x, y. cbn [flat_map]. rewrite app_nil_r. auto.
  - destruct ws as [|[|c y] [|z [|u ws]]]; try discriminate. apply andb_prop in H as [H1 H2]. exists x, z. cbn [flat_map app].
    rewrite app_nil_r. auto.
  - destruct ws as [|y [|z [|u ws]]]; try discriminate. apply andb_prop in H as [H H3].
    apply andb_prop in H as [H1 H2]. exists x, y, z. cbn [flat_map]. rewrite app_nil_r. auto 10.
Qed.

Lemma statement_ok : forall l, statement_b l = true -> Statement l.
Proof.
  intros l H. destruct l as [|k ws]; [discriminate|]. unfold statement_b in H.
  assert (F := forall_ok Float float_b float_ok).
  destruct (bytes_eqb_spec k (lit "v")) as [->|_].
  { apply andb_prop in H as [H L]. apply F in H. left. left. destruct ws as [|x [|y [|z [|w [|u ws]]]]]; try discriminate.
    - inversion H as [|? ? H1 T1]; subst. inversion T1 as [|? ? H2 T2]; subst. inversion T2 as [|? ? H3 T3]; subst.
      exists x, y, z, []. repeat split; auto. now left.
    - inversion H as [|? ? H1 T1]; subst. inversion T1 as [|? ? H2 T2]; subst. inversion T2 as [|? ? H3 T3]; subst. inversion T3 as [|? ? H4 T4]; subst.
      exists x, y, z, [w]. repeat split; auto. right. now exists w. }
  destruct (bytes_eqb k (lit "vt") || bytes_eqb k (lit "vp")) eqn:K.
  { assert (Hk : k = lit "vt" \/ k = lit "vp") by (apply orb_prop in K as [K|K]; apply bytes_eqb_eq in K; auto). clear K.
    apply andb_prop in H as [H L]. apply F in H.
    assert (T : exists u v w, Float u /\ optional Float v /\ optional Float w /\ ws = u :: v ++ w).
    { destruct ws as [|x [|y [|z [|w ws]]]]; try discriminate.
      - inversion H as [|? ? H1 T1]; subst. exists x, [], []. repeat split; auto; now left.
      - inversion H as [|? ? H1 T1]; subst. inversion T1 as [|? ? H2 T2]; subst. exists x, [y], []. repeat split; auto; [right; now exists y|now left].
      - inversion H as [|? ? H1 T1]; subst. inversion T1 as [|? ? H2 T2]; subst. inversion T2 as [|? ? H3 T3]; subst.
        exists x, [y], [z]. repeat split; auto; right; [now exists y|now exists z]. }
    destruct T as (u & v & w & Hu & Hv & Hw & ->). left.
    destruct Hk as [->| ->]; [right; left|right; right; right]; exists u, v, w; auto. }
  destruct (bytes_eqb_spec k (lit "vn")) as [->|_].
  { apply andb_prop in H as [H L]. apply F in H. left. right. right. left. destruct ws as [|x [|y [|z [|w ws]]]]; try discriminate.
    inversion H as [|? ? H1 T1]; subst. inversion T1 as [|? ? H2 T2]; subst. inversion T2 as [|? ? H3 T3]; subst. exists x, y, z. auto. }
  destruct (bytes_eqb_spec k (lit "p")) as [->|_].
  { apply andb_prop in H as [H L]. right. left. left. exists ws. split; auto. split; [intros ->; discriminate|].
    now apply (forall_ok Number number_b number_ok). }
  destruct (bytes_eqb_spec k (lit "l")) as [->|_].
  { apply andb_prop in H as [H L]. apply Nat.leb_le in L. right. left. right. left. exists ws. split; auto. split; auto.
    apply orb_prop in H as [H|H]; [right; exact (forall_ok V _ (ref_ok 1) ws H)|left; exact (forall_ok VT _ (ref_ok 2) ws H)]. }
  destruct (bytes_eqb_spec k (lit "f")) as [->|_].
  { apply andb_prop in H as [H L]. apply Nat.leb_le in L. right. left. right. right. exists ws. split; auto. split; auto.
    apply orb_prop in H as [H|H]; [apply orb_prop in H as [H|H]; [apply orb_prop in H as [H|H]|]|].
    - left. exact (forall_ok V _ (ref_ok 1) ws H).
    - right. left. exact (forall_ok VT _ (ref_ok 2) ws H).
    - right. right. left. exact (forall_ok VN _ (ref_ok 3) ws H).
    - right. right. right. exact (forall_ok VTN _ (ref_ok 4) ws H). }
  destruct (bytes_eqb_spec k (lit "g")) as [->|_].
  { right. right. right. exists ws. split; auto. now apply (forall_ok String_ string_b string_ok). }
  destruct (bytes_eqb_spec k (lit "s")) as [->|_]; [|discriminate].
  destruct ws as [|w [|? ?]]; try discriminate. right. right. left. exists w. split; auto.
  apply orb_prop in H as [H|H]; [left; now apply bytes_eqb_eq|right; right; now apply digits_ok].
Qed.

Definition line_b (l : line) : bool :=
  statement_b l || match l with [k; w] => bytes_eqb k (lit "o") && string_b w | _ => false end.

Lemma lines_list : forall ls, forallb line_b ls = true -> exists body os ls', Forall Statement body /\ object_list os ls' /\ ls = body ++ ls'.
Proof.
  induction ls as [|l ls IH]; intros H; [exists [], [], []; repeat split; constructor|].
  apply andb_prop in H as [H1 H]. destruct (IH H) as (body & os & ls' & Hb & Ho & ->). apply orb_prop in H1 as [H1|H1].
  - exists (l :: body), os, ls'. split; auto. constructor; auto. now apply statement_ok.
  - destruct l as [|k [|w [|? ?]]]; try discriminate. apply andb_prop in H1 as [H1 H2]. apply bytes_eqb_eq in H1. subst k.
    exists [], ((w, body) :: os), ([lit "o"; w] :: body ++ ls'). split; [constructor|]. split; auto. constructor; auto. now apply string_ok.
Qed.

(** The files of the grammar are exactly the sequences of its statements and
    [o] lines. *)
Lemma lines_set : forall ls, forallb line_b ls = true -> ObjectSet ls.
Proof.
  intros ls H. destruct (lines_list _ H) as (body & os & ls' & Hb & Ho & ->). exists body, ls'. split; [|split; auto].
  - right. right. now apply statements_body.
  - eapply objects_set; eauto.
Qed.

Lemma set_lines : forall ls l, ObjectSet ls -> In l ls -> Statement l \/ ObjectName l.
Proof.
  intros ls l H Hi. destruct (set_list _ H) as (body & os & ls' & Hb & Ho & ->). apply in_app_iff in Hi as [Hi|Hi].
  - left. rewrite Forall_forall in Hb. auto.
  - clear - Ho Hi. induction Ho as [|w b os ls Hw Hb Ho IH]; [destruct Hi|]. destruct Hi as [<-|Hi]; [right; now exists w|].
    apply in_app_iff in Hi as [Hi|Hi]; auto. left. rewrite Forall_forall in Hb. auto.
Qed.

Definition modest_line_b (l : line) : bool :=
  forallb modest_b l || existsb (bytes_eqb (hd [] l)) (map lit ["v"; "vt"; "vn"; "g"; "o"]%string).

Lemma modest_lines : forall ls, forallb modest_line_b ls = true -> Forall modest_line ls.
Proof.
  intros ls H. apply Forall_forall. intros l Hl K. rewrite forallb_forall in H. apply H in Hl. apply orb_prop in Hl as [Hl|Hl].
  - now apply (forall_ok modest modest_b modest_ok).
  - exfalso. apply existsb_exists in Hl as (k & Hk & E). apply bytes_eqb_eq in E. subst k.
    destruct K as [[(ws & -> & _)|[(ws & -> & _)|(ws & -> & _)]]|(w & -> & _)]; cbn [hd map In] in Hk; decompose [or] Hk; try discriminate; auto.
Qed.

Lemma no_tag : forall k ls, forallb (fun l => negb (bytes_eqb (hd [] l) (lit k))) ls = true -> Forall (fun l => forall ws, l <> lit k :: ws) ls.
Proof.
  intros k ls H. apply Forall_forall. intros l Hl ws ->. rewrite forallb_forall in H. apply H in Hl. cbn [hd] in Hl.
  now rewrite bytes_eqb_refl in Hl.
Qed.

(** ** MTL *)

Definition property_b (l : line) : bool :=
  match l with
  | [k; r; g; b] => existsb (bytes_eqb k) (map lit ["Ka"; "Kd"; "Ks"; "Ke"; "Tf"]%string) && mtl_float_b r && mtl_float_b g && mtl_float_b b
  | [k; x] => existsb (bytes_eqb k) (map lit ["d"; "Ns"; "Ni"]%string) && mtl_float_b x
              || bytes_eqb k (lit "illum") && digits_b x
              || existsb (bytes_eqb k) (map lit ["map_Ka"; "map_Kd"; "map_Ks"; "map_Ke"; "map_Bump"; "bump"; "disp"; "map_d"; "decal"]%string) && string_b x
  | _ => false
  end.

Lemma property_ok : forall l, property_b l = true -> MaterialProperty l.
Proof.
  intros l H. destruct l as [|k [|x [|y [|z [|? ?]]]]]; try discriminate; unfold property_b in H; unfold MaterialProperty.
  - apply orb_prop in H as [H|H]; [apply orb_prop in H as [H|H]|].
    + apply andb_prop in H as [H1 H2]. apply mtl_float_ok in H2. apply existsb_exists in H1 as (k' & Hk & E). apply bytes_eqb_eq in E. subst k'.
      cbn [map In] in Hk. decompose [or] Hk; try contradiction; subst k.
      * do 5 right. left. now exists x.
      * do 7 right. left. now exists x.
      * do 8 right. left. now exists x.
    + apply andb_prop in H as [H1 H2]. apply bytes_eqb_eq in H1. subst k. do 6 right. left. exists x. split; auto. now apply digits_ok.
    + apply andb_prop in H as [H1 H2]. apply string_ok in H2. apply existsb_exists in H1 as (k' & Hk & E). apply bytes_eqb_eq in E. subst k'.
      cbn [map In] in Hk. decompose [or] Hk; try contradiction; subst k.
      * do 9 right. left. now exists x.
      * do 10 right. left. now exists x.
      * do 11 right. left. now exists x.
      * do 12 right. left. now exists x.
      * do 13 right. left. now exists x.
      * do 14 right. left. now exists x.
      * do 15 right. left. now exists x.
      * do 16 right. left. now exists x.
      * do 17 right. now exists x.
  - apply andb_prop in H as [H H4]. apply andb_prop in H as [H H3]. apply andb_prop in H as [H1 H2].
    apply mtl_float_ok in H2, H3, H4. apply existsb_exists in H1 as (k' & Hk & E). apply bytes_eqb_eq in E. subst k'.
    cbn [map In] in Hk. decompose [or] Hk; try contradiction; subst k.
    + left. exists x, y, z. auto.
    + right. left. exists x, y, z. auto.
    + do 2 right. left. exists x, y, z. auto.
    + do 3 right. left. exists x, y, z. auto.
    + do 4 right. left. exists x, y, z. auto.
Qed.

Definition newmtl_b (l : line) : bool := match l with [k; w] => bytes_eqb k (lit "newmtl") && string_b w | _ => false end.

Lemma mtl_lines_set : forall ls, forallb (fun l => property_b l || newmtl_b l) ls = true ->
  match ls with l :: _ => newmtl_b l = true | [] => True end -> MtlSet ls.
Proof.
  assert (K : forall ls, forallb (fun l => property_b l || newmtl_b l) ls = true -> exists ps ls', Forall MaterialProperty ps /\ MtlSet ls' /\ ls = ps ++ ls' /\
    match ls with l :: _ => newmtl_b l = true -> property_b l = false -> ps = [] | [] => True end).
  { induction ls as [|l ls IH]; intros H; [exists [], []; repeat split; constructor|].
    apply andb_prop in H as [H1 H]. destruct (IH H) as (ps & ls' & Hp & Hm & -> & _). destruct (property_b l) eqn:P.
    - exists (l :: ps), ls'. repeat split; auto; [|discriminate]. constructor; auto. now apply property_ok.
    - cbn in H1. destruct l as [|k [|w [|? ?]]]; try discriminate. apply andb_prop in H1 as [H1 H2]. apply bytes_eqb_eq in H1. subst k.
      apply string_ok in H2. exists [], (([[lit "newmtl"; w]] ++ ps) ++ ls'). split; [constructor|]. split; [|split; auto].
      constructor; auto. exists [[lit "newmtl"; w]], ps. split; [exists [lit "newmtl"; w]; split; auto; now exists w|]. split; auto.
      clear - Hp. induction Hp as [|p ps Hp _ IH]; [constructor|]. change (p :: ps) with ([p] ++ ps). constructor; auto. now exists p. }
  intros ls H Hl. destruct (K ls H) as (ps & ls' & Hp & Hm & E & Hps). destruct ls as [|l ls]; [constructor|].
  assert (P : property_b l = false).
  { destruct l as [|k [|w [|? ?]]]; try discriminate. apply andb_prop in Hl as [Hl _]. apply bytes_eqb_eq in Hl. subst k. unfold property_b.
    reflexivity. }
  rewrite (Hps Hl P) in E. cbn in E. now rewrite E.
Qed.

Lemma mtl_set_lines : forall ls l, MtlSet ls -> In l ls -> MtlName l \/ MaterialProperty l.
Proof.
  intros ls l H. induction H as [|a b Ha H IH]; intros Hi; [destruct Hi|]. apply in_app_iff in Hi as [Hi|Hi]; auto.
  destruct Ha as (x & y & (k & Hk & ->) & Hy & ->). apply in_app_iff in Hi as [[<-|[]]|Hi]; auto. right.
  apply star_single in Hy. rewrite Forall_forall in Hy. auto.
Qed.

(** * Cases *)

Definition errs {E A} (r : outcome E A) : bool := match r with Err _ => true | _ => false end.
Definition oks {E A} (r : outcome E A) : bool := match r with Ok _ => true | _ => false end.

Lemma errs_ok : forall E A (r : outcome E A), errs r = true -> exists e, r = Err e.
Proof. destruct r; try discriminate. eauto. Qed.

Lemma oks_ok : forall E A (r : outcome E A), oks r = true -> exists a, r = Ok a.
Proof. destruct r; try discriminate. eauto. Qed.

Theorem obj_grammar_refuted :
  exists vp negative empty, ObjectSet vp /\ ObjectSet negative /\ ObjectSet empty /\
    forall dbg, (exists e, ObjModel.parse dbg (written vp) = Err e) /\
                (exists e, ObjModel.parse dbg (written negative) = Err e) /\
                ObjModel.parse dbg (written empty) = Panic PanicIndex.
Proof.
  exists (lines_of "v 1.0 2.0 3.0|vp 0.5|p 1"), (lines_of "v 1.0 2.0 3.0|p -1"), (lines_of "v 1.0 2.0 3.0|p 1|o empty").
  do 3 (split; [apply lines_set; vm_compute; reflexivity|]).
  intros dbg. split; [apply errs_ok; destruct dbg; vm_compute; reflexivity|]. split; [apply errs_ok; destruct dbg; vm_compute; reflexivity|].
  destruct dbg; vm_compute; reflexivity.
Qed.

Theorem mtl_grammar_refuted :
  exists tf illum, MtlSet tf /\ MtlSet illum /\
    (exists e, MtlModel.parse (written tf) = Err e) /\ (exists e, MtlModel.parse (written illum) = Err e).
Proof.
  exists (lines_of "newmtl a|Kd 1.0 0.0 0.0|Tf 1.0 1.0 1.0"), (lines_of "newmtl a|Kd 1.0 0.0 0.0|illum 3").
  do 2 (split; [apply mtl_lines_set; vm_compute; reflexivity|]). split; apply errs_ok; vm_compute; reflexivity.
Qed.

Ltac other_tag := match goal with K : _ = ?t :: _ |- _ => discriminate K | K : _ = _ ++ _ |- _ => discriminate K end.

Lemma float_point : forall s, Float s -> In "." s.
Proof. intros s (a & b & _ & _ & ->). apply in_or_app. right. now left. Qed.

Theorem obj_grammar_only_refuted :
  exists short integer material, ~ ObjectSet short /\ ~ ObjectSet integer /\ ~ ObjectSet material /\
    forall dbg, (exists set, ObjModel.parse dbg (written short) = Ok set) /\
                (exists set, ObjModel.parse dbg (written integer) = Ok set) /\
                (exists set, ObjModel.parse dbg (written material) = Ok set).
Proof.
  exists (lines_of "v 1.0 2.0 3.0|v 1.0 2.0 4.0|l 1 2"), (lines_of "v 1 2.0 3.0|p 1"), (lines_of "v 1.0 2.0 3.0|usemtl m|p 1").
  split; [|split; [|split]].
  - intros H. assert (K : Statement (map lit ["l"; "1"; "2"]%string) \/ ObjectName (map lit ["l"; "1"; "2"]%string)).
    { apply (set_lines _ _ H), (nth_error_In _ 2). reflexivity. }
    cbn [map] in K. destruct K as [K|(w & K & _)]; [|other_tag].
    destruct K as [[K|[K|[K|K]]]|[[K|[K|K]]|[K|K]]].
    + destruct K as (x & y & z & w & _ & _ & _ & _ & K). other_tag.
    + destruct K as (x & y & z & _ & _ & _ & K). other_tag.
    + destruct K as (x & y & z & _ & _ & _ & K). other_tag.
    + destruct K as (x & y & z & _ & _ & _ & K). other_tag.
    + destruct K as (x & K & _). other_tag.
    + destruct K as (x & K & L & _). injection K as <-. cbn in L. lia.
    + destruct K as (x & K & _). other_tag.
    + destruct K as (x & K & _). other_tag.
    + destruct K as (x & K & _). other_tag.
  - intros H. assert (K : Statement (map lit ["v"; "1"; "2.0"; "3.0"]%string) \/ ObjectName (map lit ["v"; "1"; "2.0"; "3.0"]%string)).
    { apply (set_lines _ _ H), (nth_error_In _ 0). reflexivity. }
    cbn [map] in K. destruct K as [K|(w & K & _)]; [|other_tag].
    destruct K as [[K|[K|[K|K]]]|[[K|[K|K]]|[K|K]]].
    + destruct K as (x & y & z & w & Hx & _ & _ & _ & K). cbn [app] in K. apply (f_equal (fun l => nth 1 l [])) in K. cbn [nth] in K.
      subst x. apply float_point in Hx. destruct Hx as [Hx|[]]. discriminate.
    + destruct K as (x & y & z & _ & _ & _ & K). other_tag.
    + destruct K as (x & y & z & _ & _ & _ & K). other_tag.
    + destruct K as (x & y & z & _ & _ & _ & K). other_tag.
    + destruct K as (x & K & _). other_tag.
    + destruct K as (x & K & _). other_tag.
    + destruct K as (x & K & _). other_tag.
    + destruct K as (x & K & _). other_tag.
    + destruct K as (x & K & _). other_tag.
  - intros H. assert (K : Statement (map lit ["usemtl"; "m"]%string) \/ ObjectName (map lit ["usemtl"; "m"]%string)).
    { apply (set_lines _ _ H), (nth_error_In _ 1). reflexivity. }
    cbn [map] in K. destruct K as [K|(w & K & _)]; [|other_tag].
    destruct K as [[K|[K|[K|K]]]|[[K|[K|K]]|[K|K]]].
    + destruct K as (x & y & z & w & _ & _ & _ & _ & K). other_tag.
    + destruct K as (x & y & z & _ & _ & _ & K). other_tag.
    + destruct K as (x & y & z & _ & _ & _ & K). other_tag.
    + destruct K as (x & y & z & _ & _ & _ & K). other_tag.
    + destruct K as (x & K & _). other_tag.
    + destruct K as (x & K & _). other_tag.
    + destruct K as (x & K & _). other_tag.
    + destruct K as (x & K & _). other_tag.
    + destruct K as (x & K & _). other_tag.
  - intros dbg. repeat split; apply oks_ok; destruct dbg; vm_compute; reflexivity.
Qed.

Theorem mtl_grammar_only_refuted :
  exists named mapped, ~ MtlSet named /\ ~ MtlSet mapped /\
    (exists set, MtlModel.parse (written named) = Ok set) /\ (exists set, MtlModel.parse (written mapped) = Ok set).
Proof.
  exists (lines_of "newmtl a_1|Kd 1.0 0.0 0.0"), (lines_of "newmtl a|map_Ns b").
  split; [|split].
  - intros H. assert (K : MtlName (map lit ["newmtl"; "a_1"]%string) \/ MaterialProperty (map lit ["newmtl"; "a_1"]%string)).
    { apply (mtl_set_lines _ _ H), (nth_error_In _ 0). reflexivity. }
    cbn [map] in K. destruct K as [(s & Hs & K)|K].
    + apply (f_equal (fun l => nth 1 l [])) in K. cbn [nth] in K. subst s. destruct Hs as (a & b & E & _ & Ha & Hb).
      assert (I : In "_" (a ++ b)) by (rewrite <- E; right; left; reflexivity). apply in_app_iff in I as [I|I].
      * rewrite Forall_forall in Ha. apply Ha in I. unfold Letter in I. cbn in I. lia.
      * rewrite Forall_forall in Hb. apply Hb in I. destruct I as [[d I]|I]; [inversion I|unfold Letter in I; cbn in I; lia].
    + exfalso. unfold MaterialProperty, TransmissionFilter, Component, Scalar, Map, IlluminationModel in K.
      decompose [or ex and] K; discriminate.
  - intros H. assert (K : MtlName (map lit ["map_Ns"; "b"]%string) \/ MaterialProperty (map lit ["map_Ns"; "b"]%string)).
    { apply (mtl_set_lines _ _ H), (nth_error_In _ 1). reflexivity. }
    cbn [map] in K. destruct K as [(s & Hs & K)|K]; [discriminate|].
    exfalso. unfold MaterialProperty, TransmissionFilter, Component, Scalar, Map, IlluminationModel in K.
    decompose [or ex and] K; discriminate.
  - split; apply oks_ok; vm_compute; reflexivity.
Qed.
