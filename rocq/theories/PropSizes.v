(** C42: sizes of names and lists of groups.

    SizeSpec.v says what is counted. *)
From Verif Require Import ObjModel ObjTop ObjProps SizeSpec Sizes ExampleText.
From Verif Require MtlModel MtlSizes.
Local Open Scope list_scope.

(** All names together are not longer than the text, except for the names of
    default groups. *)
Theorem C42_names : forall dbg input set, fits input -> parse dbg input = Ok set ->
  weight (material_libraries set) + sum_over set (fun ob => weight (names_in ob)) <= length input + 7 * length (objects set).
Proof. exact names_length. Qed.
Print Assumptions C42_names.

Theorem C42_mtl_names : forall input set, MtlModel.parse input = Ok set ->
  list_sum (map (fun m => weight (MtlTypes.name m :: texture_maps m)) (MtlTypes.materials set)) <= length input.
Proof. exact MtlSizes.names_length. Qed.
Print Assumptions C42_mtl_names.

(** Every element has its own list of groups.  Together, these lists are not
    longer than the square of the length of the text, *)
Theorem C42_groups : forall dbg input set, fits input -> parse dbg input = Ok set ->
  sum_over set group_count <= length input * length input.
Proof. exact group_counts. Qed.
Print Assumptions C42_groups.

(** and they do grow like that: a text of [4 k + 12] bytes has [k * k] entries. *)
Theorem C42_quadratic : forall k, k <> 0 -> fits (many_groups k) ->
  length (many_groups k) = 4 * k + 12 /\ exists set, parse false (many_groups k) = Ok set /\ sum_over set group_count = k * k.
Proof. exact quadratic. Qed.
Print Assumptions C42_quadratic.

Example C42_groups_example :
  many_groups 3 = text "v 0 0 0|g a a a|p 1 1 1|" /\ fits (many_groups 3) /\
  exists set, parse true (many_groups 3) = Ok set /\ sum_over set group_count = 9.
Proof. split; [reflexivity|]. split; [vm_compute; discriminate|]. eexists. split; vm_compute; reflexivity. Qed.

Example C42_names_example :
  let input := text "mtllib ab|v 0 0 0|usemtl m|p 1|o xyz|v 1 1 1|g a bc|p 2|" in
  exists set, parse true input = Ok set /\ weight (material_libraries set) = 2 /\
    map names_in (objects set) = [[[]; lit "default"; lit "m"]; [lit "xyz"; lit "a"; lit "bc"]] /\
    sum_over set (fun ob => weight (names_in ob)) = 14.
Proof. eexists. split; [vm_compute; reflexivity|]. split; [reflexivity|]. split; reflexivity. Qed.
