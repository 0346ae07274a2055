(** [Display] texts: their form, and that they read back. *)
From Verif Require Import ObjModel DisplayModel DisplaySpec ObjWriteSpec LexerProofs TextProofs ObjTop ObjFacts ObjProps ObjWrite
  NumberProofs FloatProofs FmtProofs NumberFacts WordProofs.
Local Open Scope list_scope.

(** * Numbers *)

Lemma digits_number : forall s n, s <> [] -> digits s (N.of_nat n) -> (Z.of_nat n <= isize_max)%Z -> number_token s n.
Proof.
  intros s n Hs Hd Hn. apply parse_isize_iff. unfold isize_max in Hn. split; [lia|]. exists (N.of_nat n). left. split; [|lia].
  exists s. auto.
Qed.

Lemma add_one_small : forall dbg v, (Z.of_nat v < isize_max)%Z -> add_one dbg v = Some (N.of_nat (S v)).
Proof.
  intros dbg v H. unfold add_one, isize_max, usize_max in *. destruct (N.ltb_spec (N.of_nat v) (2 ^ 64 - 1)); [f_equal|]; lia.
Qed.

Lemma show_number : forall n, (Z.of_nat n <= isize_max)%Z -> number_token (show_N (N.of_nat n)) n.
Proof. intros n H. apply digits_number; auto; [apply show_N_some|apply show_N_digits]. Qed.

(** * Indices *)

Definition one_based (i : vtn_index) : reference :=
  match i with
  | V v => mkRef (S v) None None
  | VT v t => mkRef (S v) (Some (S t)) None
  | VN v n => mkRef (S v) None (Some (S n))
  | VTN v t n => mkRef (S v) (Some (S t)) (Some (S n))
  end.

Definition index_small (i : vtn_index) : Prop :=
  (Z.of_nat (index_vertex i) < isize_max)%Z /\
  (forall k, index_texture i = Some k -> (Z.of_nat k < isize_max)%Z) /\
  (forall k, index_normal i = Some k -> (Z.of_nat k < isize_max)%Z).

Lemma show_index_ref : forall dbg i, index_small i ->
  exists s, show_vtn_index dbg i = Some s /\ ref_token s (one_based i) /\ word s.
Proof.
  intros dbg i (Hv & Ht & Hn).
  assert (N1 : forall k, (Z.of_nat k < isize_max)%Z -> number_token (show_N (N.of_nat (S k))) (S k)) by (intros; apply show_number; lia).
  assert (W : forall k, word (show_N k)) by (intros; apply plain_words; [apply show_N_some|apply show_N_plain]).
  assert (W1 : word slash) by (apply lit_word; [discriminate|reflexivity]).
  destruct i as [v|v t|v n|v t n]; cbn [index_vertex index_texture index_normal] in *; unfold show_vtn_index;
    try specialize (Ht _ eq_refl); try specialize (Hn _ eq_refl); rewrite ?(add_one_small dbg) by assumption;
    cbn [option_map join piece app one_based]; eexists; (split; [reflexivity|]); rewrite ?app_nil_r; split;
    auto; try (apply ref_1; now auto).
  - apply (ref_2 _ (show_N (N.of_nat (S t)))); auto. now apply part_number, N1.
  - apply (word_app _ _ (W _)). now apply (word_app slash).
  - apply (ref_3 _ [] (show_N (N.of_nat (S n)))); auto; [constructor|]. now apply part_number, N1.
  - apply (word_app _ _ (W _)). apply (word_app slash _ W1). now apply (word_app slash).
  - apply (ref_3 _ (show_N (N.of_nat (S t))) (show_N (N.of_nat (S n)))); auto; now apply part_number, N1.
  - apply (word_app _ _ (W _)). apply (word_app slash _ W1). apply (word_app _ _ (W _)). now apply (word_app slash).
Qed.

Lemma one_based_local : forall i, local_ref no_counts (one_based i) = i.
Proof. intros []; unfold local_ref, local_index; cbn; now rewrite ?Nat.sub_0_r. Qed.

Lemma one_based_form : forall i, form (one_based i) = index_form i.
Proof. intros []; reflexivity. Qed.

Lemma one_based_scope : forall nv nt nn i, index_in nv nt nn i -> ref_in_scope no_counts (mkCounts nv nt nn) (one_based i).
Proof.
  intros nv nt nn i (Hv & Ht & Hn). unfold ref_in_scope, in_scope. destruct i; cbn in *;
    try specialize (Ht _ eq_refl); try specialize (Hn _ eq_refl); unfold in_scope; repeat split; auto; lia.
Qed.

Lemma index_in_small : forall nv nt nn i, index_in nv nt nn i ->
  (Z.of_nat nv <= isize_max)%Z -> (Z.of_nat nt <= isize_max)%Z -> (Z.of_nat nn <= isize_max)%Z -> index_small i.
Proof.
  intros nv nt nn i (Hv & Ht & Hn) H1 H2 H3. split; [lia|]. split; intros k Hk; [specialize (Ht _ Hk)|specialize (Hn _ Hk)]; lia.
Qed.

(** * Statements that write what is displayed *)

Definition element_statement (e : element) : statement :=
  match e with
  | Point a => SPoint [S (index_vertex a)]
  | Line a b => SLine [one_based a; one_based b]
  | Face a b c => SFace [one_based a; one_based b; one_based c]
  end.

Lemma show_element_writes : forall dbg nv nt nn e, element_in nv nt nn e ->
  (Z.of_nat nv <= isize_max)%Z -> (Z.of_nat nt <= isize_max)%Z -> (Z.of_nat nn <= isize_max)%Z ->
  exists ws, show_element dbg e = Some (spaced ws) /\ Forall word ws /\ writes (element_statement e) ws /\
    proper no_counts (mkCounts nv nt nn) (element_statement e) /\ elements_of no_counts (element_statement e) = [e].
Proof.
  intros dbg nv nt nn e (Hi & Hf & Hp) Hnv Hnt Hnn.
  assert (Hs : forall i, In i (corners (draw_element e)) -> index_small i /\ ref_in_scope no_counts (mkCounts nv nt nn) (one_based i)).
  { intros i Hin. rewrite Forall_forall in Hi. specialize (Hi _ Hin). split; [eapply index_in_small; eauto|now apply one_based_scope]. }
  destruct e as [a|a b|a b c]; cbn [draw_element corners] in *.
  - destruct (Hp a eq_refl) as (k & ->). destruct (Hs (V k)) as [Sa Ra]; [now left|].
    destruct (show_index_ref dbg (V k) Sa) as (s & Es & _ & Ws). unfold show_element. rewrite Es.
    exists [lit "p"; s]. cbn [join piece spaced element_statement index_vertex]. rewrite app_nil_r. split; [reflexivity|].
    split; [words|]. split; [|split].
    + apply writes_p. constructor; [|constructor]. destruct Sa as [Sa _]. cbn [index_vertex] in Sa.
      unfold show_vtn_index in Es. rewrite add_one_small in Es by exact Sa. cbn [option_map join] in Es.
      rewrite app_nil_r in Es. injection Es as <-. apply (show_number (S k)). lia.
    + cbn [proper]. split; [discriminate|]. constructor; [|constructor]. apply Ra.
    + cbn. unfold local_index. now rewrite Nat.sub_0_r.
  - destruct (Hs a) as [Sa Ra]; [now left|]. destruct (Hs b) as [Sb Rb]; [right; now left|].
    destruct (show_index_ref dbg a Sa) as (s & Es & Ts & Ws). destruct (show_index_ref dbg b Sb) as (s' & Es' & Ts' & Ws').
    unfold show_element. rewrite Es, Es'. exists [lit "l"; s; s']. cbn [join piece spaced element_statement]. rewrite app_nil_r.
    split; [reflexivity|]. split; [words|]. split; [|split].
    + apply writes_l. repeat (apply Forall2_cons; [assumption|]). apply Forall2_nil.
    + cbn [proper]. split; [cbn; lia|]. split; [|repeat (apply Forall_cons; [assumption|]); apply Forall_nil].
      intros r1 r2 [<-|[<-|[]]] [<-|[<-|[]]]; rewrite !one_based_form; apply Hf; cbn; auto.
    + cbn [elements_of map pairs combine tl]. now rewrite !one_based_local.
  - destruct (Hs a) as [Sa Ra]; [now left|]. destruct (Hs b) as [Sb Rb]; [right; now left|]. destruct (Hs c) as [Sc Rc]; [right; right; now left|].
    destruct (show_index_ref dbg a Sa) as (s & Es & Ts & Ws). destruct (show_index_ref dbg b Sb) as (s' & Es' & Ts' & Ws').
    destruct (show_index_ref dbg c Sc) as (s'' & Es'' & Ts'' & Ws'').
    unfold show_element. rewrite Es, Es', Es''. exists [lit "f"; s; s'; s'']. cbn [join piece spaced element_statement]. rewrite app_nil_r.
    split; [reflexivity|]. split; [words|]. split; [|split].
    + apply writes_f. repeat (apply Forall2_cons; [assumption|]). apply Forall2_nil.
    + cbn [proper]. split; [cbn; lia|]. split; [|repeat (apply Forall_cons; [assumption|]); apply Forall_nil].
      intros r1 r2 [<-|[<-|[<-|[]]]] [<-|[<-|[<-|[]]]]; rewrite !one_based_form; apply Hf; cbn; auto.
    + cbn [elements_of map pairs combine tl]. now rewrite !one_based_local.
Qed.

Lemma show_vertex_writes : forall v, vertex_f64 v ->
  exists ws, show_vertex v = Some (spaced ws) /\ Forall word ws /\ writes (SVertex v) ws.
Proof.
  intros [x y z w] (Hx & Hy & Hz & Hw); cbn [vx vy vz vw] in *.
  exists [lit "v"; show_f64 x; show_f64 y; show_f64 z; show_f64 w]. split; [|split; [words|]].
  - unfold show_vertex. cbn [join piece spaced vx vy vz vw]. now rewrite app_nil_r.
  - apply writes_v4; now apply show_f64_read.
Qed.

Lemma show_texture_writes : forall v, texture_f64 v ->
  exists ws, show_texture_vertex v = Some (spaced ws) /\ Forall word ws /\ writes (STexture v) ws.
Proof.
  intros [x y z] (Hx & Hy & Hz); cbn [tu tv tw] in *.
  exists [lit "vt"; show_f64 x; show_f64 y; show_f64 z]. split; [|split; [words|]].
  - unfold show_texture_vertex. cbn [join piece spaced tu tv tw]. now rewrite app_nil_r.
  - apply writes_vt3; now apply show_f64_read.
Qed.

Lemma show_normal_writes : forall v, normal_f64 v ->
  exists ws, show_normal_vertex v = Some (spaced ws) /\ Forall word ws /\ writes (SNormal v) ws.
Proof.
  intros [x y z] (Hx & Hy & Hz); cbn [nx ny nz] in *.
  exists [lit "vn"; show_f64 x; show_f64 y; show_f64 z]. split; [|split; [words|]].
  - unfold show_normal_vertex. cbn [join piece spaced nx ny nz]. now rewrite app_nil_r.
  - apply writes_vn; now apply show_f64_read.
Qed.

(** * A whole object *)

(** Lines, the words on them, and the statements they write. *)
Lemma lines_write : forall A (P : A -> Prop) (show : A -> option bytes) (st : A -> statement) xs ls,
  (forall x, P x -> exists ws, show x = Some (spaced ws) /\ Forall word ws /\ writes (st x) ws) ->
  Forall P xs -> map show xs = map Some ls ->
  exists wss, ls = map spaced wss /\ Forall (Forall word) wss /\ Forall2 writes (map st xs) wss.
Proof.
  intros A P show st xs ls Hs H. revert ls. induction H as [|x xs Hx H IH]; intros ls E.
  - destruct ls; [|discriminate]. exists []. repeat constructor.
  - destruct ls as [|l ls]; [discriminate|]. cbn [map] in E. injection E as E1 E2.
    destruct (IH _ E2) as (wss & -> & Hw & Hf). destruct (Hs _ Hx) as (ws & E3 & Hw' & Hf'). rewrite E3 in E1. injection E1 as <-.
    exists (ws :: wss). repeat split; [|constructor; auto]. constructor; auto.
Qed.

Lemma lines_body : forall last ss wss, Forall2 writes ss wss -> writes_body last ss (flat_map (fun l => l ++ [nl]) wss).
Proof.
  intros last ss wss H. induction H as [|s ws ss wss Hs H IH]; [constructor|]. cbn [flat_map]. rewrite <- app_assoc. cbn [app].
  now apply writes_body_line.
Qed.

Definition statements (vs : list vertex) (ts : list texture_vertex) (ns : list normal_vertex) (es : list element) : list statement :=
  map SVertex vs ++ map STexture ts ++ map SNormal ns ++ map element_statement es.

Lemma proper_data : forall base vs ts ns es now,
  Forall (fun e => proper base (mkCounts (n_v now + length vs) (n_t now + length ts) (n_n now + length ns)) (element_statement e)) es ->
  proper_body base now (statements vs ts ns es).
Proof.
  intros base vs ts ns es. unfold statements. induction vs as [|v vs IH]; intros now H.
  - revert now H. induction ts as [|t ts IH]; intros now H.
    + revert now H. induction ns as [|n ns IH]; intros now H.
      * cbn [map app length] in *. rewrite !Nat.add_0_r in H. destruct now as [a b c]. cbn [n_v n_t n_n] in H.
        induction H as [|e es He H IH]; cbn [map proper_body]; [exact I|]. split; [exact He|].
        replace (count _ _) with (mkCounts a b c) by (destruct e; reflexivity). exact IH.
      * cbn [map app proper_body]. split; [exact I|]. apply (IH (count now (SNormal n))). destruct now as [a b c]. cbn [count n_v n_t n_n length] in *.
        replace (S c + length ns) with (c + S (length ns)) by lia. exact H.
    + cbn [map app proper_body]. split; [exact I|]. apply (IH (count now (STexture t))). destruct now as [a b c]. cbn [count n_v n_t n_n length] in *.
      replace (S b + length ts) with (b + S (length ts)) by lia. exact H.
  - cbn [map app proper_body]. split; [exact I|]. apply (IH (count now (SVertex v))). destruct now as [a b c]. cbn [count n_v n_t n_n length] in *.
    replace (S a + length vs) with (a + S (length vs)) by lia. exact H.
Qed.

Lemma flat_map_none : forall A B (f : A -> list B) l, (forall x, In x l -> f x = []) -> flat_map f l = [].
Proof. intros A B f l H. induction l as [|a l IH]; [reflexivity|]. cbn. rewrite H by now left. apply IH. intros; apply H; now right. Qed.

Lemma flat_map_one : forall A B C (f : B -> list C) (g : A -> B) (h : A -> C) l, (forall x, In x l -> f (g x) = [h x]) ->
  flat_map f (map g l) = map h l.
Proof. intros A B C f g h l H. induction l as [|a l IH]; [reflexivity|]. cbn. rewrite H by now left. cbn. f_equal. apply IH. intros; apply H; now right. Qed.

Lemma data_of : forall vs ts ns es, Forall (fun e => elements_of no_counts (element_statement e) = [e]) es ->
  let ss := statements vs ts ns es in
  all_vertices ss = vs /\ all_texture_vertices ss = ts /\ all_normals ss = ns /\ all_elements no_counts ss = es.
Proof.
  intros vs ts ns es H ss.
  assert (Z : forall A (f : statement -> list A) B (g : B -> statement) l, (forall x, f (g x) = []) -> flat_map f (map g l) = []).
  { intros A f B g l K. apply flat_map_none. intros x Hx. apply in_map_iff in Hx. destruct Hx as (y & <- & _). auto. }
  assert (O : forall A (f : statement -> list A) (g : A -> statement) l, (forall x, f (g x) = [x]) -> flat_map f (map g l) = l).
  { intros A f g l K. rewrite (flat_map_one _ _ _ f g (fun x => x)) by auto. apply map_id. }
  unfold ss, statements, all_vertices, all_texture_vertices, all_normals, all_elements. rewrite !flat_map_app.
  repeat split.
  - rewrite O by reflexivity. rewrite !Z by (try reflexivity; intros []; reflexivity). now rewrite !app_nil_r.
  - rewrite (Z _ _ _ SVertex) by reflexivity. rewrite O by reflexivity. rewrite !Z by (try reflexivity; intros []; reflexivity). now rewrite !app_nil_r.
  - rewrite (Z _ _ _ SVertex) by reflexivity. rewrite (Z _ _ _ STexture) by reflexivity. rewrite O by reflexivity.
    rewrite !Z by (try reflexivity; intros []; reflexivity). now rewrite !app_nil_r.
  - rewrite (Z _ _ _ SVertex) by reflexivity. rewrite (Z _ _ _ STexture) by reflexivity. rewrite (Z _ _ _ SNormal) by reflexivity. cbn [app].
    rewrite (flat_map_one _ _ _ _ element_statement (fun x => x)), map_id; [reflexivity|]. rewrite Forall_forall in H. exact H.
Qed.

Lemma unlines_length : forall ls, length ls <= length (unlines ls).
Proof. induction ls as [|l ls IH]; [cbn; lia|]. change (unlines (l :: ls)) with ((l ++ nl) ++ unlines ls). rewrite !app_length. change (length nl) with 1. cbn [length]. lia. Qed.

Theorem display_read_back : forall dbg dbg' vs ts ns es lv lt ln le,
  Forall vertex_f64 vs -> Forall texture_f64 ts -> Forall normal_f64 ns ->
  Forall (element_in (length vs) (length ts) (length ns)) es -> es <> [] ->
  map show_vertex vs = map Some lv -> map show_texture_vertex ts = map Some lt ->
  map show_normal_vertex ns = map Some ln -> map (show_element dbg) es = map Some le ->
  fits (unlines (lv ++ lt ++ ln ++ le)) ->
  exists ob, ObjModel.parse dbg' (unlines (lv ++ lt ++ ln ++ le)) = Ok (mkObjectSet [] [ob]) /\
    vertex_set ob = vs /\ texture_vertex_set ob = ts /\ normal_vertex_set ob = ns /\ element_set ob = es.
Proof.
  intros dbg dbg' vs ts ns es lv lt ln le Hv Ht Hn He Hne Ev Et En Ee Hfit.
  assert (Hlen : (Z.of_nat (length vs) <= isize_max)%Z /\ (Z.of_nat (length ts) <= isize_max)%Z /\ (Z.of_nat (length ns) <= isize_max)%Z).
  { unfold fits in Hfit. pose proof (unlines_length (lv ++ lt ++ ln ++ le)) as HL. rewrite !app_length in HL.
    apply (f_equal (@length _)) in Ev, Et, En. rewrite !map_length in Ev, Et, En. lia. }
  destruct Hlen as (L1 & L2 & L3).
  assert (Hel : forall e, element_in (length vs) (length ts) (length ns) e ->
    exists ws, show_element dbg e = Some (spaced ws) /\ Forall word ws /\ writes (element_statement e) ws).
  { intros e K. destruct (show_element_writes dbg _ _ _ e K L1 L2 L3) as (ws & H1 & H2 & H3 & _). eauto. }
  destruct (lines_write _ _ _ _ _ _ show_vertex_writes Hv Ev) as (w1 & -> & W1 & F1).
  destruct (lines_write _ _ _ _ _ _ show_texture_writes Ht Et) as (w2 & -> & W2 & F2).
  destruct (lines_write _ _ _ _ _ _ show_normal_writes Hn En) as (w3 & -> & W3 & F3).
  destruct (lines_write _ _ _ _ _ _ Hel He Ee) as (w4 & -> & W4 & F4).
  rewrite <- !map_app in *.
  assert (HW : Forall (Forall word) (w1 ++ w2 ++ w3 ++ w4)) by (repeat (apply Forall_app; split; auto)).
  apply unlines_tokens in HW.
  assert (HF : Forall2 writes (statements vs ts ns es) (w1 ++ w2 ++ w3 ++ w4)) by (repeat (apply Forall2_app; auto)).
  set (f := mkObjFile [] [([], statements vs ts ns es)]).
  assert (Hel' : Forall (fun e => proper no_counts (mkCounts (length vs) (length ts) (length ns)) (element_statement e) /\
     elements_of no_counts (element_statement e) = [e]) es).
  { apply Forall_forall. intros e Hin. rewrite Forall_forall in He.
    destruct (show_element_writes dbg _ _ _ e (He _ Hin) L1 L2 L3) as (ws & _ & _ & _ & H4 & H5). auto. }
  assert (Hwf : well_formed f).
  { split; cbn [f file_objects].
    - split; [|exact I]. apply proper_data. cbn [n_v n_t n_n no_counts plus].
      eapply Forall_impl; [|exact Hel']. intros e [K _]. exact K.
    - constructor; [|constructor]. destruct es as [|e es]; [congruence|]. exists (element_statement e). split.
      + cbn [snd]. unfold statements. rewrite !in_app_iff. right. right. right. now left.
      + left. now destruct e. }
  assert (Hw : writes_file f (flat_map (fun l => l ++ [nl]) (w1 ++ w2 ++ w3 ++ w4))).
  { rewrite <- (app_nil_l (flat_map _ _)). rewrite <- (app_nil_r (flat_map _ _)).
    apply writes_unnamed; [constructor| |constructor]. now apply lines_body. }
  exists (object_of no_counts [] (statements vs ts ns es)). split.
  - rewrite (written_parses dbg' f _ _ Hfit Hwf Hw HW). reflexivity.
  - cbn [object_of vertex_set texture_vertex_set normal_vertex_set element_set]. apply data_of.
    eapply Forall_impl; [|exact Hel']. intros e [_ K]. exact K.
Qed.

(** * What has been parsed *)

Definition statement_f64 (s : statement) : Prop :=
  match s with
  | SVertex v => vertex_f64 v
  | STexture v => texture_f64 v
  | SNormal v => normal_f64 v
  | _ => True
  end.

Lemma float_f64 : forall t x, float_token t x -> is_f64 x.
Proof. intros t x H. now apply (parsed_is_f64 t). Qed.

Lemma optional_f64 : forall d ts x rest, is_f64 d -> reads_optional d ts x rest -> is_f64 x.
Proof. intros d ts x rest Hd H. destruct H; auto. eapply float_f64; eauto. Qed.

Lemma statement_reads_f64 : forall base now ts s rest, reads_statement base now ts s rest -> statement_f64 s.
Proof.
  intros base now ts s rest H. destruct H; cbn [statement_f64]; try exact I;
    repeat split; cbn; eauto using float_f64.
  - exact (optional_f64 f64_one _ _ _ eq_refl H2).
  - exact (optional_f64 f64_zero _ _ _ eq_refl H0).
  - exact (optional_f64 f64_zero _ _ _ eq_refl H1).
Qed.

Lemma body_reads_f64 : forall base now ts ss rest, reads_body base now ts ss rest -> Forall statement_f64 ss.
Proof. intros base now ts ss rest H. induction H; auto. constructor; auto. eapply statement_reads_f64; eauto. Qed.

Lemma objects_reads_f64 : forall now ts os rest, reads_objects now ts os rest -> Forall (fun o => Forall statement_f64 (snd o)) os.
Proof. intros now ts os rest H. induction H; constructor; auto. eapply body_reads_f64; eauto. Qed.

Lemma file_reads_f64 : forall ts f rest, reads_file ts f rest -> Forall (fun o => Forall statement_f64 (snd o)) (file_objects f).
Proof.
  intros ts f rest H. destruct H; cbn [file_objects]; [|constructor]; eauto using objects_reads_f64.
  eapply body_reads_f64; eauto.
Qed.

Lemma objects_of_in : forall os base ob, In ob (objects_of base os) -> exists b n ss, In (n, ss) os /\ ob = object_of b n ss.
Proof.
  induction os as [|[n ss] os IH]; intros base ob H; [destruct H|]. destruct H as [<-|H].
  - exists base, n, ss. split; [now left|reflexivity].
  - destruct (IH _ _ H) as (b & n' & ss' & Hin & E). exists b, n', ss'. split; [now right|exact E].
Qed.

Lemma parsed_f64 : forall dbg input set ob, fits input -> ObjModel.parse dbg input = Ok set -> In ob (objects set) ->
  Forall vertex_f64 (vertex_set ob) /\ Forall texture_f64 (texture_vertex_set ob) /\ Forall normal_f64 (normal_vertex_set ob).
Proof.
  intros dbg input set ob Hf H Hin. apply parse_debug_ok in H. apply parse_ok_iff in H; [|exact Hf].
  destruct H as (ts & f & _ & Hr & _ & ->). apply file_reads_f64 in Hr. cbn [file_means objects] in Hin.
  apply objects_of_in in Hin. destruct Hin as (b & n & ss & Hin & ->). rewrite Forall_forall in Hr. specialize (Hr _ Hin). cbn [snd] in Hr.
  rewrite Forall_forall in Hr. cbn [object_of vertex_set texture_vertex_set normal_vertex_set].
  unfold all_vertices, all_texture_vertices, all_normals.
  repeat split; apply Forall_forall; intros v Hv; apply in_flat_map in Hv; destruct Hv as (s & Hs & Hv); specialize (Hr _ Hs);
    destruct s; cbn in Hv; try tauto; destruct Hv as [<-|[]]; exact Hr.
Qed.

Lemma parsed_elements : forall dbg input set ob, fits input -> ObjModel.parse dbg input = Ok set -> In ob (objects set) ->
  Forall (element_in (length (vertex_set ob)) (length (texture_vertex_set ob)) (length (normal_vertex_set ob))) (element_set ob).
Proof.
  intros dbg input set ob Hf H Hin. apply Forall_forall. intros e He. destruct (object_forms _ _ _ _ _ Hf H Hin He) as [H1 H2].
  split; [|split; auto]. apply Forall_forall. intros i Hi.
  pose proof (object_resolves _ _ _ _ _ _ Hf H Hin He Hi) as Hr. apply get_none in Hr. destruct Hr as (R1 & R2 & R3). split; auto.
Qed.

Theorem parsed_read_back : forall dbg input set ob dbg' dbg'' lv lt ln le,
  fits input -> ObjModel.parse dbg input = Ok set -> In ob (objects set) -> element_set ob <> [] ->
  map show_vertex (vertex_set ob) = map Some lv -> map show_texture_vertex (texture_vertex_set ob) = map Some lt ->
  map show_normal_vertex (normal_vertex_set ob) = map Some ln -> map (show_element dbg') (element_set ob) = map Some le ->
  fits (unlines (lv ++ lt ++ ln ++ le)) ->
  exists ob', ObjModel.parse dbg'' (unlines (lv ++ lt ++ ln ++ le)) = Ok (mkObjectSet [] [ob']) /\
    vertex_set ob' = vertex_set ob /\ texture_vertex_set ob' = texture_vertex_set ob /\
    normal_vertex_set ob' = normal_vertex_set ob /\ element_set ob' = element_set ob.
Proof.
  intros dbg input set ob dbg' dbg'' lv lt ln le Hf H Hin Hne Ev Et En Ee Hfit.
  destruct (parsed_f64 _ _ _ _ Hf H Hin) as (F1 & F2 & F3). pose proof (parsed_elements _ _ _ _ Hf H Hin) as F4.
  eapply (display_read_back dbg' dbg''); eauto.
Qed.

(** * Indices as texts *)

Theorem show_index_token : forall dbg i,
  (Z.of_nat (index_vertex i) < isize_max)%Z ->
  (forall k, index_texture i = Some k -> (Z.of_nat k < isize_max)%Z) ->
  (forall k, index_normal i = Some k -> (Z.of_nat k < isize_max)%Z) ->
  exists s, show_vtn_index dbg i = Some s /\
    ref_token s (mkRef (S (index_vertex i)) (option_map S (index_texture i)) (option_map S (index_normal i))).
Proof.
  intros dbg i H1 H2 H3. destruct (show_index_ref dbg i) as (s & E & T & _); [repeat split; auto|].
  exists s. split; [exact E|]. destruct i; exact T.
Qed.

Theorem show_smoothing_token : forall n, (n < 2 ^ 64)%N -> exists s, show_smoothing_group n = Some s /\ smoothing_token s n.
Proof.
  intros n H. unfold show_smoothing_group. destruct (N.eqb_spec n 0) as [->|Hn]; eexists; (split; [reflexivity|]); [constructor|].
  apply smoothing_number. apply parse_usize_iff. split; auto. exists (show_N n). split; [apply show_N_some|]. split; [apply show_N_digits|auto].
Qed.

(** * [Display] of objects *)

Lemma join_some : forall ps, Forall (fun p => p <> None) ps -> join ps <> None.
Proof.
  intros ps H. induction H as [|p ps Hp H IH]; [discriminate|]. cbn [join]. destruct p; [|congruence]. destruct (join ps); [discriminate|congruence].
Qed.

Lemma mapped : forall A (show : A -> option bytes) l, Forall (fun x => show x <> None) l -> exists ls, map show l = map Some ls.
Proof.
  intros A show l H. induction H as [|x l Hx H IH]; [now exists []|]. destruct IH as (ls & E). destruct (show x) as [s|] eqn:Es; [|congruence].
  exists (s :: ls). cbn [map]. now rewrite Es, E.
Qed.

Lemma mapped_nth : forall A (show : A -> option bytes) l ls, map show l = map Some ls -> forall i, show_at show l i = nth_error ls i.
Proof.
  intros A show l ls E i. unfold show_at. pose proof (f_equal (fun l => nth_error l i) E) as K. cbn beta in K. rewrite !nth_error_map in K.
  destruct (nth_error l i), (nth_error ls i); cbn in K; congruence.
Qed.

Lemma nth_last : forall (l : list bytes) a, nth_error (a :: l) (length (a :: l) - 1) = Some (last (a :: l) []).
Proof.
  induction l as [|b l IH]; intros a; [reflexivity|]. specialize (IH b). cbn [length] in *. rewrite Nat.sub_succ, Nat.sub_0_r in *.
  change (nth_error (a :: b :: l) (S (length l))) with (nth_error (b :: l) (length l)). rewrite IH. reflexivity.
Qed.

Lemma compose_reports : forall A (show : A -> option bytes) l ls name, map show l = map Some ls ->
  exists s, compose_set show l name = Some s /\ reports name ls s.
Proof.
  intros A show l ls name E. unfold compose_set. pose proof (mapped_nth _ _ _ _ E) as Hn.
  assert (El : length l = length ls) by (apply (f_equal (@length _)) in E; now rewrite !map_length in E).
  rewrite El. destruct l as [|x l], ls as [|y ls]; try discriminate El.
  - eexists. split; [reflexivity|]. exists (show_nat 0). split; [apply show_N_some|]. split; [apply show_N_digits|].
    unfold unlines. cbn [flat_map app length]. rewrite <- !app_assoc. reflexivity.
  - rewrite !Hn, nth_last. cbn [nth_error join piece newline]. eexists. split; [reflexivity|].
    exists (show_nat (length (y :: ls))). split; [apply show_N_some|]. split; [apply show_N_digits|].
    unfold unlines. cbn [flat_map app]. rewrite !app_nil_r, <- !app_assoc. reflexivity.
Qed.

Lemma show_index_some : forall dbg i, (dbg = true -> forall k, k = index_vertex i \/ Some k = index_texture i \/ Some k = index_normal i ->
  (N.of_nat k < usize_max)%N) -> show_vtn_index dbg i <> None.
Proof.
  intros dbg i H.
  assert (K : forall k, k = index_vertex i \/ Some k = index_texture i \/ Some k = index_normal i -> exists n, add_one dbg k = Some n).
  { intros k Hk. unfold add_one. destruct (N.ltb_spec (N.of_nat k) usize_max); [eauto|]. destruct dbg; [|eauto]. specialize (H eq_refl k Hk). lia. }
  destruct i; cbn [index_vertex index_texture index_normal] in K; unfold show_vtn_index;
    repeat match goal with |- context [add_one dbg ?k] => destruct (K k) as (? & ->); [auto|] end; discriminate.
Qed.

Lemma show_element_some : forall dbg e, (dbg = true -> Forall index_usize (corners (draw_element e))) -> show_element dbg e <> None.
Proof.
  intros dbg e H. assert (K : forall i, In i (corners (draw_element e)) -> show_vtn_index dbg i <> None).
  { intros i Hi. apply show_index_some. intros Hd. specialize (H Hd). rewrite Forall_forall in H. now apply H. }
  destruct e; unfold show_element; apply join_some; repeat (apply Forall_cons; [try discriminate; apply K; cbn; auto|]); apply Forall_nil.
Qed.

Theorem show_object_reports : forall dbg ob,
  (dbg = true -> forall e, In e (element_set ob) -> Forall index_usize (corners (draw_element e))) ->
  exists lv lt ln lg ls le sv st sn sg ss se,
    map show_vertex (vertex_set ob) = map Some lv /\ map show_texture_vertex (texture_vertex_set ob) = map Some lt /\
    map show_normal_vertex (normal_vertex_set ob) = map Some ln /\ map show_group (group_set ob) = map Some lg /\
    map show_smoothing_group (smoothing_group_set ob) = map Some ls /\ map (show_element dbg) (element_set ob) = map Some le /\
    reports "vertex" lv sv /\ reports "texture vertex" lt st /\ reports "normal vertex" ln sn /\
    reports "group" lg sg /\ reports "smoothing group" ls ss /\ reports "element" le se /\
    show_object dbg ob = Some (unlines [lit "Object {"; lit "    name: " ++ name ob] ++ sv ++ st ++ sn ++ sg ++ ss ++ se ++ unlines [lit "}}"]).
Proof.
  intros dbg ob H.
  destruct (mapped _ show_vertex (vertex_set ob)) as (lv & Ev); [apply Forall_forall; intros; discriminate|].
  destruct (mapped _ show_texture_vertex (texture_vertex_set ob)) as (lt & Et); [apply Forall_forall; intros; discriminate|].
  destruct (mapped _ show_normal_vertex (normal_vertex_set ob)) as (ln & En); [apply Forall_forall; intros; discriminate|].
  destruct (mapped _ show_group (group_set ob)) as (lg & Eg); [apply Forall_forall; intros; discriminate|].
  destruct (mapped _ show_smoothing_group (smoothing_group_set ob)) as (ls & Es).
  { apply Forall_forall. intros x _. unfold show_smoothing_group. destruct (_ =? _)%N; discriminate. }
  destruct (mapped _ (show_element dbg) (element_set ob)) as (le & Ee).
  { apply Forall_forall. intros e He. apply show_element_some. auto. }
  destruct (compose_reports _ _ _ _ "vertex" Ev) as (sv & Cv & Rv). destruct (compose_reports _ _ _ _ "texture vertex" Et) as (st & Ct & Rt).
  destruct (compose_reports _ _ _ _ "normal vertex" En) as (sn & Cn & Rn). destruct (compose_reports _ _ _ _ "group" Eg) as (sg & Cg & Rg).
  destruct (compose_reports _ _ _ _ "smoothing group" Es) as (ss & Cs & Rs). destruct (compose_reports _ _ _ _ "element" Ee) as (se & Ce & Re).
  exists lv, lt, ln, lg, ls, le, sv, st, sn, sg, ss, se. repeat (split; [assumption|]).
  unfold show_object, compose. rewrite Cv, Ct, Cn, Cg, Cs, Ce. cbn [join piece newline]. f_equal.
  unfold unlines. cbn [flat_map]. rewrite !app_nil_r, <- !app_assoc. reflexivity.
Qed.

Lemma index_in_usize : forall nv nt nn i, index_in nv nt nn i ->
  (Z.of_nat nv <= isize_max)%Z -> (Z.of_nat nt <= isize_max)%Z -> (Z.of_nat nn <= isize_max)%Z -> index_usize i.
Proof.
  intros nv nt nn i (H1 & H2 & H3) L1 L2 L3 k Hk. unfold isize_max, usize_max in *.
  destruct Hk as [->|[K|K]]; [|specialize (H2 _ (eq_sym K))|specialize (H3 _ (eq_sym K))]; lia.
Qed.

Lemma in_sum : forall A (g : A -> nat) l x, In x l -> g x <= list_sum (map g l).
Proof.
  intros A g l x H. induction l as [|a l IH]; [destruct H|]. change (list_sum (map g (a :: l))) with (g a + list_sum (map g l)).
  destruct H as [->|H]; [lia|]. specialize (IH H). lia.
Qed.

Lemma parsed_usize : forall dbg input set ob e, fits input -> ObjModel.parse dbg input = Ok set -> In ob (objects set) ->
  In e (element_set ob) -> Forall index_usize (corners (draw_element e)).
Proof.
  intros dbg input set ob e Hf H Hin He. pose proof (parsed_elements _ _ _ _ Hf H Hin) as K. rewrite Forall_forall in K.
  destruct (K _ He) as (K1 & _). destruct (all_sizes _ _ _ Hf H) as (_ & _ & S1 & S2 & S3 & _). unfold fits in Hf.
  pose proof (in_sum _ (fun ob => length (vertex_set ob)) _ _ Hin). pose proof (in_sum _ (fun ob => length (texture_vertex_set ob)) _ _ Hin).
  pose proof (in_sum _ (fun ob => length (normal_vertex_set ob)) _ _ Hin). unfold sum_over in *. cbn beta in *.
  eapply Forall_impl; [|exact K1]. intros i Hi. eapply index_in_usize; eauto; lia.
Qed.

Theorem show_set_objects : forall dbg set texts,
  map (show_object dbg) (objects set) = map Some texts ->
  show_object_set dbg set = Some (unlines [lit "ObjectSet {"] ++ unlines texts ++ unlines [lit "}"]).
Proof.
  intros dbg set texts E. unfold show_object_set.
  assert (K : join (map (fun ob => join [compose dbg ob; newline]) (objects set)) = Some (unlines texts)).
  { set (F := fun ob => join [compose dbg ob; newline]). revert texts E. induction (objects set) as [|ob l IH]; intros [|t texts] E; try discriminate E; [reflexivity|].
    cbn [map] in *. injection E as E1 E2. unfold show_object in E1. cbn [join]. rewrite (IH _ E2). unfold F at 1. rewrite E1. cbn [join newline].
    rewrite app_nil_r. reflexivity. }
  rewrite K. reflexivity.
Qed.

Theorem show_set_some : forall dbg set,
  (dbg = true -> forall ob e, In ob (objects set) -> In e (element_set ob) -> Forall index_usize (corners (draw_element e))) ->
  exists texts, map (show_object dbg) (objects set) = map Some texts /\
    show_object_set dbg set = Some (unlines [lit "ObjectSet {"] ++ unlines texts ++ unlines [lit "}"]).
Proof.
  intros dbg set H. destruct (mapped _ (show_object dbg) (objects set)) as (texts & E).
  - apply Forall_forall. intros ob Hob. destruct (show_object_reports dbg ob) as (lv & lt & ln & lg & ls & le & sv & st & sn & sg & ss & se & K).
    + intros Hd e He. eapply H; eauto.
    + destruct K as (_ & _ & _ & _ & _ & _ & _ & _ & _ & _ & _ & _ & K). rewrite K. discriminate.
  - exists texts. split; [exact E|]. now apply show_set_objects.
Qed.

Lemma max_panics : show_vtn_index true (V (N.to_nat usize_max)) = None.
Proof. unfold show_vtn_index, add_one. rewrite N2Nat.id. rewrite N.ltb_irrefl. reflexivity. Qed.

(** * Errors *)

Lemma digits_no_colon : forall s n, digits s n -> ~ In ":"%char s.
Proof.
  intros s n H. induction H as [|s n c d H IH Hd]; [auto|]. rewrite in_app_iff. intros [K|[K|[]]]; [auto|]. subst. inversion Hd.
Qed.

Lemma first_colon : forall a b (x y : bytes), ~ In ":"%char a -> ~ In ":"%char b -> a ++ ":"%char :: x = b ++ ":"%char :: y -> a = b /\ x = y.
Proof.
  induction a as [|c a IH]; intros [|d b] x y Ha Hb E; cbn in E.
  - injection E as E. auto.
  - injection E as E1 E2. exfalso. apply Hb. now left.
  - injection E as E1 E2. exfalso. apply Ha. now left.
  - injection E as -> E. destruct (IH b x y) as [-> ->]; auto; intros K; [apply Ha|apply Hb]; now right.
Qed.

Lemma show_nat_inj : forall a b, show_nat a = show_nat b -> a = b.
Proof.
  intros a b E. pose proof (show_N_digits (N.of_nat a)) as Ha. pose proof (show_N_digits (N.of_nat b)) as Hb.
  unfold show_nat in E. rewrite E in Ha. apply digits_val_digits in Ha, Hb. rewrite Ha in Hb. injection Hb as Hb. lia.
Qed.

Theorem show_error_inj : forall K K' (e : parse_error K) (e' : parse_error K'), show_parse_error e = show_parse_error e' ->
  err_line_number e = err_line_number e' /\ err_message e = err_message e'.
Proof.
  intros K K' e e' E. unfold show_parse_error in E. apply app_inv_head in E.
  apply (first_colon (show_nat (err_line_number e)) (show_nat (err_line_number e')) (" "%char :: err_message e) (" "%char :: err_message e')) in E.
  - destruct E as [E1 E2]. split; [now apply show_nat_inj|congruence].
  - eapply digits_no_colon, show_N_digits.
  - eapply digits_no_colon, show_N_digits.
Qed.

Theorem error_text : forall K (e : parse_error K), exists n, n <> [] /\ digits n (N.of_nat (err_line_number e)) /\
  show_parse_error e = lit "Parse error at line " ++ n ++ lit ": " ++ err_message e.
Proof.
  intros K e. exists (show_nat (err_line_number e)). split; [apply show_N_some|]. split; [apply show_N_digits|reflexivity].
Qed.

Lemma parsed_object_shown : forall dbg dbg' input set ob, fits input -> ObjModel.parse dbg input = Ok set -> In ob (objects set) ->
  show_object dbg' ob <> None.
Proof.
  intros dbg dbg' input set ob Hf H Hin. destruct (show_object_reports dbg' ob) as (lv & lt & ln & lg & ls & le & sv & st & sn & sg & ss & se & K).
  - intros _ e He. eapply parsed_usize; eauto.
  - destruct K as (_ & _ & _ & _ & _ & _ & _ & _ & _ & _ & _ & _ & K). rewrite K. discriminate.
Qed.

Lemma parsed_set_shown : forall dbg dbg' input set, fits input -> ObjModel.parse dbg input = Ok set -> show_object_set dbg' set <> None.
Proof.
  intros dbg dbg' input set Hf H. destruct (show_set_some dbg' set) as (texts & _ & E).
  - intros _ ob e Hob He. eapply parsed_usize; eauto.
  - rewrite E. discriminate.
Qed.

Lemma max_object_panics : exists ob, show_object true ob = None.
Proof.
  exists (mkObject [] [] [] [] [] [] [Point (V (N.to_nat usize_max))] [] []). unfold show_object, compose.
  cbn [vertex_set texture_vertex_set normal_vertex_set group_set smoothing_group_set element_set].
  assert (E : compose_set (show_element true) [Point (V (N.to_nat usize_max))] "element" = None).
  { unfold compose_set, show_at. cbn [nth_error]. unfold show_element at 1. rewrite max_panics. reflexivity. }
  rewrite E. reflexivity.
Qed.
