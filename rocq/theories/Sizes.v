(** How large the lists of groups are, all together. *)
From Verif Require Import ObjModel ObjErrorSpec ObjView LexerProofs TextProofs ObjTop ObjMeaning ObjFacts ObjMore ObjProps ObjState ObjExtend LineSpec WordProofs
  PlaceSpec ObjCut SizeSpec.
Local Open Scope list_scope.

Lemma last_group_split : forall ss q names, last_group ss = Some (q, names) -> exists more, ss = (q ++ [SGroup names]) ++ more.
Proof.
  induction ss as [|s ss IH]; intros q names H; [discriminate|]. cbn in H.
  destruct (last_group ss) as [[q' n']|] eqn:E.
  - injection H as <- <-. destruct (IH _ _ eq_refl) as (more & ->). exists more. reflexivity.
  - destruct s; try discriminate. injection H as <- <-. exists ss. reflexivity.
Qed.

Lemma group_prefix : forall ss ss', prefix (all_groups (ss ++ ss')) (all_groups ss).
Proof. intros ss ss'. apply declared_front. intros []; discriminate || reflexivity. Qed.

Lemma groups_at_le : forall p q, length (groups_at p) <= Nat.max 1 (length (all_groups (p ++ q))).
Proof.
  intros p q. unfold groups_at. destruct (last_group p) as [[q' names]|] eqn:E; [|cbn [length]; lia].
  destruct (last_group_split _ _ _ E) as (more & ->). rewrite <- app_assoc.
  destruct (group_prefix (q' ++ [SGroup names]) (more ++ q)) as (rest & ->).
  assert (G : all_groups (q' ++ [SGroup names]) = all_groups q' ++ names).
  { unfold all_groups. rewrite declared_app_nonempty; [reflexivity|]. intros []; discriminate || reflexivity. }
  rewrite G, !app_length. destruct (all_groups q'), names; cbn [length]; rewrite ?seq_length; cbn [length]; lia.
Qed.

Lemma shapes_some_group : forall base ss before i se, In se (shapes_from before base ss i) -> all_groups ss <> [].
Proof.
  intros base ss. induction ss as [|s ss IH]; intros before i se H; [destruct H|]. cbn in H. apply in_app_or in H.
  unfold all_groups. cbn. destruct (is_element s) eqn:E; [discriminate|]. destruct H as [H|H].
  - destruct s; try discriminate E; cbn in H; destruct H.
  - destruct (names_of s); [|discriminate]. exact (IH _ _ _ H).
Qed.

Lemma list_sum_le : forall A (f : A -> nat) k l, (forall x, In x l -> f x <= k) -> list_sum (map f l) <= length l * k.
Proof.
  intros A f k l. unfold list_sum. induction l as [|x l IH]; intros H; cbn; [lia|].
  pose proof (H x (or_introl eq_refl)). pose proof (IH (fun y Hy => H y (or_intror Hy))). lia.
Qed.

Lemma group_count_le : forall base n ss, let ob := object_of base n ss in
  group_count ob <= length (shape_set ob) * length (group_set ob).
Proof.
  intros base n ss ob. unfold group_count. apply list_sum_le. intros se H. cbn [ob object_of shape_set group_set] in H |- *. clear ob.
  pose proof (shapes_some_group _ _ _ _ _ H) as Hg. destruct (shapes_groups _ _ _ _ _ H) as (p & q & -> & ->). cbn [app].
  pose proof (groups_at_le p q) as K. 
  destruct (all_groups (p ++ q)) as [|g gs]; [congruence|]. 
  eapply Nat.le_trans; [exact K|]. apply Nat.max_lub; [apply le_n_S, Nat.le_0_l|apply le_n].
Qed.

Lemma sum_product : forall A (f g h : A -> nat) l, (forall x, In x l -> h x <= f x * g x) ->
  list_sum (map h l) <= list_sum (map f l) * list_sum (map g l).
Proof.
  intros A f g h l. unfold list_sum. induction l as [|x l IH]; intros H; cbn; [lia|].
  pose proof (H x (or_introl eq_refl)). pose proof (IH (fun y Hy => H y (or_intror Hy))). nia.
Qed.

Lemma objects_are : forall c os ob, In ob (objects_of c os) -> exists base n ss, ob = object_of base n ss.
Proof.
  intros c os. revert c. induction os as [|[n ss] os IH]; intros c ob H; [destruct H|]. destruct H as [<-|H]; eauto.
Qed.

Theorem group_counts : forall dbg input set, fits input -> parse dbg input = Ok set ->
  sum_over set group_count <= length input * length input.
Proof.
  intros dbg input set Hf P. destruct (all_sizes _ _ _ Hf P) as (_ & _ & _ & _ & _ & H1 & _ & _ & H2 & _).
  assert (K : sum_over set group_count <= sum_over set (fun ob => length (shape_set ob)) * sum_over set (fun ob => length (group_set ob))).
  { unfold sum_over. apply sum_product. intros ob Hin. destruct (parsed_said _ _ _ Hf P) as (f & _ & _ & ->).
    destruct (objects_are _ _ _ Hin) as (base & n & ss & ->). apply group_count_le. }
  nia.
Qed.

(** * Many groups *)

Definition many_statements (k : nat) : list statement :=
  [SVertex (mkVertex f64_zero f64_zero f64_zero f64_one); SGroup (repeat (lit "a") k); SPoint (repeat 1 k)].

Lemma many_says : forall k, k <> 0 -> says (many_groups k) (mkObjFile [] [([], many_statements k)]).
Proof.
  intros k Hk. eexists. split.
  - assert (W : forall s, s <> ""%string -> forallb plain (lit s) = true -> forall n, Forall word (repeat (lit s) n)).
    { intros s H1 H2 n. apply Forall_forall. intros w Hw. apply repeat_spec in Hw. subst w. now apply lit_word. }
    apply unlines_unwords. apply Forall_cons; [|apply Forall_cons; [|apply Forall_cons; [|apply Forall_nil]]].
    + repeat (apply Forall_cons; [apply lit_word; [discriminate|reflexivity]|]). apply Forall_nil.
    + apply Forall_cons; [apply lit_word|apply W]; discriminate || reflexivity.
    + apply Forall_cons; [apply lit_word|apply W]; discriminate || reflexivity.
  - assert (R : reads_body no_counts no_counts
      ([lit "v"; lit "0"; lit "0"; lit "0"; nl; lit "g"] ++ repeat (lit "a") k ++ nl :: lit "p" :: repeat (lit "1") k ++ [nl])
      (many_statements k) []).
    { apply (body_statement _ _ _ _ (nl :: lit "g" :: repeat (lit "a") k ++ nl :: lit "p" :: repeat (lit "1") k ++ [nl])).
      { apply reads_v; try (vm_compute; reflexivity). apply optional_other. exact nl_not_float. }
      apply body_blank. eapply body_statement.
      { apply reads_g, line_nl. intros C. apply repeat_spec in C. discriminate C. }
      eapply body_statement.
      { apply (reads_p _ _ _ (repeat (lit "1") k) (repeat 1 k)).
        - apply line_nl. intros C. apply repeat_spec in C. discriminate C.
        - clear Hk. induction k as [|k IH]; constructor; auto. split; [reflexivity|]. unfold in_scope. cbn. lia.
        - now destruct k. }
      apply body_end. exact I. }
    cbn [flat_map app]. rewrite app_nil_r, <- app_assoc. cbn [app] in R |- *.
    eapply file_unnamed; [apply libraries_end| |exact R|apply objects_end]; cbn; [split|]; discriminate.
Qed.

Lemma unwords_length : forall w v k, length v = 1 -> length (unwords (w :: repeat v k)) = length w + 2 * k.
Proof.
  intros w v k Hv. revert w. induction k as [|k IH]; intros w; [cbn; lia|].
  change (unwords (w :: repeat v (S k))) with (w ++ lit " " ++ unwords (v :: repeat v k)). rewrite !app_length, IH. rewrite Hv. change (Datatypes.length (lit " ")) with 1. lia.
Qed.

Lemma many_length : forall k, length (many_groups k) = 4 * k + 12.
Proof.
  intros k. unfold many_groups, unlines. cbn [map flat_map]. rewrite !app_length, !unwords_length by reflexivity. cbn -[Nat.mul].
  change (Datatypes.length nl) with 1. change (Datatypes.length (lit "g")) with 1. change (Datatypes.length (lit "p")) with 1.
  match goal with |- Datatypes.length ?w + _ + _ = _ => change (Datatypes.length w) with 7 end.
  lia.
Qed.

Lemma many_count : forall k, k <> 0 -> group_count (object_of no_counts [] (many_statements k)) = k * k.
Proof.
  intros k Hk. unfold group_count. cbn [object_of shape_set many_statements shapes_from elements_of length seq map app].
  rewrite map_length, repeat_length, app_nil_r, map_map. cbn [se_groups].
  replace (groups_at _) with (seq 0 k) by (destruct k; [congruence|]; cbn; now rewrite repeat_length).
  rewrite seq_length. unfold list_sum.
  assert (K : forall i n, fold_right Nat.add 0 (map (fun _ => k) (seq i n)) = n * k).
  { intros i n. revert i. induction n as [|n IH]; intros i; cbn; [reflexivity|]. now rewrite IH. }
  apply K.
Qed.

Theorem quadratic : forall k, k <> 0 -> fits (many_groups k) ->
  length (many_groups k) = 4 * k + 12 /\ exists set, parse false (many_groups k) = Ok set /\ sum_over set group_count = k * k.
Proof.
  intros k Hk Hf. split; [apply many_length|]. eexists. split.
  - apply parse_says_iff; auto. exists (mkObjFile [] [([], many_statements k)]). split; [now apply many_says|]. split; [|reflexivity].
    apply Forall_cons; [|apply Forall_nil]. exists (SPoint (repeat 1 k)). split; [cbn; auto|]. now left.
  - unfold sum_over. cbn [file_means objects file_objects objects_of map]. rewrite many_count by exact Hk. cbn. lia.
Qed.

(** * The length of all names *)

Lemma weight_app : forall a b, weight (a ++ b) = weight a + weight b.
Proof. intros a b. unfold weight. now rewrite map_app, list_sum_app. Qed.

Lemma weight_cons : forall t ts, weight (t :: ts) = length t + weight ts.
Proof. reflexivity. Qed.

Lemma tokenizes_weight : forall s ts, tokenizes s ts -> weight ts <= length s.
Proof.
  intros s ts H. induction H as [|c s ts Hc H IH|c s ts Hc H IH|text s ts H1 H2 H IH|w s ts H1 H2 H3 H IH]; cbn [Datatypes.length];
    rewrite ?weight_cons, ?app_length; cbn [Datatypes.length]; rewrite ?app_length; unfold bytes, byte in *; try lia; apply le_n.
Qed.

Definition use_of (s : statement) : list bytes := match s with SUse m => [m] | _ => [] end.
Definition name_weight (s : statement) : nat := weight (names_of s) + weight (use_of s).

Lemma line_weight : forall ts names rest, reads_line ts names rest -> weight names + weight rest <= weight ts.
Proof. intros ts names rest H. destruct H; rewrite ?weight_app, ?weight_cons; [change (weight []) with 0|]; lia. Qed.

Lemma suffix_weight : forall ts (q rest : list bytes), ts = q ++ rest -> weight rest <= weight ts.
Proof. intros ts q rest ->. rewrite weight_app. lia. Qed.

Lemma statement_weight : forall base now ts s rest, reads_statement base now ts s rest -> name_weight s + weight rest <= weight ts.
Proof.
  intros base now ts s rest H. destruct (statement_suffix _ _ _ _ _ H) as (q & E). pose proof (suffix_weight _ _ _ E) as K.
  destruct H as [tx ty tz ts x y z w rest Hx Hy Hz Ho|tu ts u' v' mid w rest Hu Hv Hw|tx ty tz x y z rest Hx Hy Hz|ts names rest Hl
      |t n rest Ht|name rest|ts toks ks rest Hl Hp Hk|ts rs rest Hr' Hlen Hf|ts rs rest Hr' Hlen Hf]; try exact K.
  - pose proof (line_weight _ _ _ Hl). unfold name_weight. cbn [names_of use_of]. rewrite weight_cons. change (weight []) with 0. lia.
  - unfold name_weight. cbn [names_of use_of]. rewrite !weight_cons. change (weight []) with 0. lia.
Qed.

Lemma body_weight : forall base now ts ss rest, reads_body base now ts ss rest -> total name_weight ss + weight rest <= weight ts.
Proof.
  intros base now ts ss rest H. induction H as [now ts He|now ts ss rest H IH|now ts s mid ss rest Hs H IH].
  - cbn. lia.
  - rewrite weight_cons. lia.
  - apply statement_weight in Hs. change (total name_weight (s :: ss)) with (name_weight s + total name_weight ss). lia.
Qed.

Definition object_weight (o : bytes * list statement) : nat := length (fst o) + total name_weight (snd o).

Lemma objects_weight : forall now ts os rest, reads_objects now ts os rest ->
  list_sum (map object_weight os) + weight rest <= weight ts.
Proof.
  intros now ts os rest H. induction H as [now ts|now n ts ss mid os rest Hb H IH]; [cbn; lia|].
  apply body_weight in Hb. cbn [map]. change (list_sum (?x :: ?l)) with (x + list_sum l).
  rewrite !weight_cons. unfold object_weight at 1. cbn [fst snd]. lia.
Qed.

Lemma libraries_weight : forall ts libs rest, reads_libraries ts libs rest -> weight libs + weight rest <= weight ts.
Proof.
  intros ts libs rest H. induction H as [ts libs rest H IH|ts names mid libs rest Hl H IH|ts He].
  - rewrite weight_cons. lia.
  - apply line_weight in Hl. rewrite weight_cons, weight_app. lia.
  - cbn. lia.
Qed.

Lemma file_weight : forall ts f, reads_file ts f [] -> weight (file_libraries f) + list_sum (map object_weight (file_objects f)) <= weight ts.
Proof.
  intros ts f H. inversion H as [ts1 libs mid os rest Hl Ho|ts1 libs mid ss mid' os rest Hl He Hb Ho]; subst; cbn [file_libraries file_objects];
    apply libraries_weight in Hl; apply objects_weight in Ho.
  - lia.
  - apply body_weight in Hb. cbn [map]. change (list_sum (?x :: ?l)) with (x + list_sum l). unfold object_weight at 1. cbn [fst snd Datatypes.length]. lia.
Qed.

Lemma flat_weight : forall (g : statement -> list bytes) ss, weight (flat_map g ss) = total (fun s => weight (g s)) ss.
Proof. intros g ss. induction ss as [|s ss IH]; [reflexivity|]. cbn [flat_map]. rewrite weight_app, IH. reflexivity. Qed.

Lemma total_add : forall g h ss, total (fun s => g s + h s) ss = total g ss + total h ss.
Proof.
  intros g h ss. unfold total. induction ss as [|s ss IH]; [reflexivity|]. cbn [map]. change (list_sum (?x :: ?l)) with (x + list_sum l). lia.
Qed.

Lemma declared_weight : forall ss, weight (all_groups ss) <= 7 + total (fun s => weight (names_of s)) ss.
Proof.
  intros ss. rewrite <- flat_weight. unfold all_groups. induction ss as [|s ss IH]; [cbn; lia|]. cbn [declared flat_map].
  destruct (is_element s) eqn:E.
  - rewrite weight_cons, weight_app. change (length (lit "default")) with 7. lia.
  - destruct (names_of s) as [|x xs]; [exact IH|]. rewrite !weight_app. lia.
Qed.

Definition geometry_names (gs : list geometry) : list bytes :=
  flat_map (fun g => match material_name g with Some m => [m] | None => [] end) gs.

Lemma geometry_cons : forall g gs, weight (geometry_names (g :: gs)) =
  weight (match material_name g with Some m => [m] | None => [] end) + weight (geometry_names gs).
Proof. intros g gs. unfold geometry_names. cbn [flat_map]. apply weight_app. Qed.

Lemma drop_weight : forall gs, weight (geometry_names (drop_empty gs)) <= weight (geometry_names gs).
Proof.
  induction gs as [|g gs IH]; [auto|]. destruct gs as [|g' gs]; [auto|].
  change (drop_empty (g :: g' :: gs)) with (match shapes g with [] => drop_empty (g' :: gs) | _ => g :: drop_empty (g' :: gs) end).
  destruct (shapes g).
  - rewrite (geometry_cons g). lia.
  - rewrite (geometry_cons g (drop_empty _)), (geometry_cons g (_ :: _)). lia.
Qed.

Lemma segments_weight : forall base ss m i n, weight (geometry_names (segments m base ss i n)) =
  weight (match m with Some x => [x] | None => [] end) + total (fun s => weight (use_of s)) ss.
Proof.
  intros base ss. induction ss as [|s ss IH]; intros m i n.
  - unfold geometry_names. cbn [segments flat_map material_name]. rewrite app_nil_r. change (total _ []) with 0. lia.
  - change (total ?f (s :: ss)) with (f s + total f ss).
    destruct s; cbn [segments use_of]; try (rewrite IH; change (weight []) with 0; lia).
    unfold geometry_names in *. cbn [flat_map material_name]. rewrite weight_app, IH. lia.
Qed.

Lemma object_names_weight : forall base n ss, weight (names_in (object_of base n ss)) <= 7 + object_weight (n, ss).
Proof.
  intros base n ss. unfold names_in, material_names_of. rewrite weight_cons, weight_app. cbn [object_of name group_set geometry_set].
  pose proof (declared_weight ss) as H1. pose proof (drop_weight (segments None base ss 0 0)) as H2. rewrite segments_weight in H2.
  change (weight (match None with Some x => [x] | None => [] end)) with 0 in H2. unfold geometry_names in H2.
  unfold object_weight, name_weight. cbn [fst snd]. rewrite total_add.
  change (weight []) with 0 in H2. unfold group, bytes, byte in *. lia.
Qed.

Theorem names_length : forall dbg input set, fits input -> parse dbg input = Ok set ->
  weight (material_libraries set) + sum_over set (fun ob => weight (names_in ob)) <= length input + 7 * length (objects set).
Proof.
  intros dbg input set Hf P. destruct (parsed_said _ _ _ Hf P) as (f & (ts & Ht & Hr) & Hd & ->).
  pose proof (tokenizes_weight _ _ Ht). apply file_weight in Hr. unfold sum_over. cbn [file_means material_libraries objects].
  assert (K : forall os c, list_sum (map (fun ob => weight (names_in ob)) (objects_of c os)) <= list_sum (map object_weight os) + 7 * length (objects_of c os)).
  { induction os as [|[n ss] os IH]; intros c; [cbn; lia|]. cbn [objects_of map Datatypes.length]. change (list_sum (?x :: ?l)) with (x + list_sum l).
    specialize (IH (count_all c ss)). pose proof (object_names_weight c n ss). lia. }
  specialize (K (file_objects f) no_counts). lia.
Qed.
