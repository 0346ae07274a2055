(** The crate's own tests of src/lexer.rs, run on the model.

    The bodies are the tests of /repo translated statement by statement: the
    same input text, the same calls, the same expected values (a decimal number
    is written as the double nearest to it).  They say nothing beyond those
    inputs; they are evidence that the model computes what the code computes. *)
From Coq Require Import String List NArith ZArith Floats.SpecFloat.
From Verif Require Import Lexer RustStd.
Import ListNotations.
Local Open Scope string_scope.
Local Open Scope list_scope.

(** [lexer.collect()]: the answers of [next] up to the first [None]. *)
Fixpoint take (n : nat) (p : peekable_lexer) : list bytes :=
  match n with
  | O => []
  | S n =>
      match peekable_next p with
      | (Some t, p) => t :: take n p
      | (None, _) => []
      end
  end.

(** src/lexer.rs:239, case 1 *)
Example lexer_case1 :
  take 1000 (peekable_new (lexer_new (lit "                              \
                        v -2.300000  1.950000  0.000000                \
                        v -2.200000  0.790000  0.000000                \
                        v -2.340000 -1.510000  0.000000                \
                        v -1.530000 -1.490000  0.000000                \
                        v -0.720000 -1.470000  0.000000                \
                        v -0.780000  0.230000  0.000000                \
                        v  0.070000  0.250000  0.000000                \
                        v  0.920000  0.270000  0.000000                \
                        v  0.800000 -1.610000  0.000000                \
                        v  1.620000 -1.590000  0.000000                \
                        v  2.440000 -1.570000  0.000000                \
                        v  2.690000  0.670000  0.000000                \
                        v  2.900000  1.980000  0.000000                \
                        # 13 vertices                                  \
                                                                       \
                        # Multi                                        \
                        # line                                         \
                        # comment                                      \
                        cstype bezier                                  \
                        ctech cparm 1.000000                           \
                        deg 3                                          \
                        curv 0.000000 4.000000 1 2 3 4 5 6 7 8 9 10 \\ \
                        11 12 13                                       \
                        parm u 0.000000 1.000000 2.000000 3.000000  \\ \
                        4.000000                                       \
                        end                                            \
                        # 1 element                                    \
                        "))) =
  [lit "
"; lit "v"; lit "-2.300000"; lit "1.950000"; lit "0.000000"; lit "
"; lit "v"; lit "-2.200000"; lit "0.790000"; lit "0.000000"; lit "
"; lit "v"; lit "-2.340000"; lit "-1.510000"; lit "0.000000"; lit "
"; lit "v"; lit "-1.530000"; lit "-1.490000"; lit "0.000000"; lit "
"; lit "v"; lit "-0.720000"; lit "-1.470000"; lit "0.000000"; lit "
"; lit "v"; lit "-0.780000"; lit "0.230000"; lit "0.000000"; lit "
"; lit "v"; lit "0.070000"; lit "0.250000"; lit "0.000000"; lit "
"; lit "v"; lit "0.920000"; lit "0.270000"; lit "0.000000"; lit "
"; lit "v"; lit "0.800000"; lit "-1.610000"; lit "0.000000"; lit "
"; lit "v"; lit "1.620000"; lit "-1.590000"; lit "0.000000"; lit "
"; lit "v"; lit "2.440000"; lit "-1.570000"; lit "0.000000"; lit "
"; lit "v"; lit "2.690000"; lit "0.670000"; lit "0.000000"; lit "
"; lit "v"; lit "2.900000"; lit "1.980000"; lit "0.000000"; lit "
"; lit "
"; lit "
"; lit "
"; lit "
"; lit "
"; lit "cstype"; lit "bezier"; lit "
"; lit "ctech"; lit "cparm"; lit "1.000000"; lit "
"; lit "deg"; lit "3"; lit "
"; lit "curv"; lit "0.000000"; lit "4.000000"; lit "1"; lit "2"; lit "3"; lit "4"; lit "5"; lit "6"; lit "7"; lit "8"; lit "9"; lit "10"; lit "
"; lit "11"; lit "12"; lit "13"; lit "
"; lit "parm"; lit "u"; lit "0.000000"; lit "1.000000"; lit "2.000000"; lit "3.000000"; lit "
"; lit "4.000000"; lit "
"; lit "end"; lit "
"; lit "
"].
Proof. vm_compute. reflexivity. Qed.

(** src/lexer.rs:239, case 2 *)
Example lexer_case2 :
  take 1000 (peekable_new (lexer_new (lit "                           \
                        # diamond.obj                               \
                                                                    \
                        g Object001                                 \
                                                                    \
                        v  0.000000E+00  0.000000E+00  78.0000      \
                        v  45.0000       45.0000       0.000000E+00 \
                        v  45.0000      -45.0000       0.000000E+00 \
                        v -45.0000      -45.0000       0.000000E+00 \
                        v -45.0000       45.0000       0.000000E+00 \
                        v  0.000000E+00  0.000000E+00 -78.0000      \
                                                                    \
                        f     1 2 3                                 \
                        f     1 3 4                                 \
                        f     1 4 5                                 \
                        f     1 5 2                                 \
                        f     6 5 4                                 \
                        f     6 4 3                                 \
                        f     6 3 2                                 \
                        f     6 2 1                                 \
                        f     6 1 5                                 \
                                                                    \
                                                                    \
                                                                    \
                        "))) =
  [lit "
"; lit "
"; lit "
"; lit "g"; lit "Object001"; lit "
"; lit "
"; lit "v"; lit "0.000000E+00"; lit "0.000000E+00"; lit "78.0000"; lit "
"; lit "v"; lit "45.0000"; lit "45.0000"; lit "0.000000E+00"; lit "
"; lit "v"; lit "45.0000"; lit "-45.0000"; lit "0.000000E+00"; lit "
"; lit "v"; lit "-45.0000"; lit "-45.0000"; lit "0.000000E+00"; lit "
"; lit "v"; lit "-45.0000"; lit "45.0000"; lit "0.000000E+00"; lit "
"; lit "v"; lit "0.000000E+00"; lit "0.000000E+00"; lit "-78.0000"; lit "
"; lit "
"; lit "f"; lit "1"; lit "2"; lit "3"; lit "
"; lit "f"; lit "1"; lit "3"; lit "4"; lit "
"; lit "f"; lit "1"; lit "4"; lit "5"; lit "
"; lit "f"; lit "1"; lit "5"; lit "2"; lit "
"; lit "f"; lit "6"; lit "5"; lit "4"; lit "
"; lit "f"; lit "6"; lit "4"; lit "3"; lit "
"; lit "f"; lit "6"; lit "3"; lit "2"; lit "
"; lit "f"; lit "6"; lit "2"; lit "1"; lit "
"; lit "f"; lit "6"; lit "1"; lit "5"; lit "
"; lit "
"; lit "
"; lit "
"].
Proof. vm_compute. reflexivity. Qed.

(** src/lexer.rs:239, case 3 *)
Example lexer_case3 :
  take 1000 (peekable_new (lexer_new (lit "                                   \
                        # trimming curve                                    \
                        vp -0.675  1.850 3.000                              \
                        vp  0.915  1.930                                    \
                        vp  2.485  0.470 2.000                              \
                        vp  2.485 -1.030                                    \
                        vp  1.605 -1.890 10.700                             \
                        vp -0.745 -0.654 0.500                              \
                        cstype rat bezier                                   \
                        deg 3                                               \
                        curv2 -6 -5 -4 -3 -2 -1 -6                          \
                        parm u 0.00 1.00 2.00                               \
                        end                                                 \
                        # special curve                                     \
                        vp -0.185 0.322                                     \
                        vp  0.214 0.818                                     \
                        vp  1.652 0.207                                     \
                        vp  1.652 -0.455                                    \
                        curv2 -4 -3 -2 -1                                   \
                        parm u 2.00 10.00                                   \
                        end                                                 \
                        # surface                                           \
                        v -1.350 -1.030 0.000                               \
                        v  0.130 -1.030 0.432 7.600                         \
                        v  1.480 -1.030 0.000 2.300                         \
                        v -1.460  0.060 0.201                               \
                        v  0.120  0.060 0.915 0.500                         \
                        v  1.380  0.060 0.454 1.500                         \
                        v -1.480  1.030 0.000 2.300                         \
                        v  0.120  1.030 0.394 6.100                         \
                        v  1.170  1.030 0.000 3.300                         \
                        cstype rat bspline                                  \
                        deg 2 2                                             \
                        surf -1.0 2.5 -2.0 2.0 -9 -8 -7 -6 -5 -4 -3 -2 -1   \
                        parm u -1.00 -1.00 -1.00 2.50 2.50 2.50             \
                        parm v -2.00 -2.00 -2.00 2.00 2.00 2.00             \
                        trim 0.0 2.0 1                                      \
                        scrv 4.2 9.7 2                                      \
                        end                                                 \
                    "))) =
  [lit "
"; lit "
"; lit "vp"; lit "-0.675"; lit "1.850"; lit "3.000"; lit "
"; lit "vp"; lit "0.915"; lit "1.930"; lit "
"; lit "vp"; lit "2.485"; lit "0.470"; lit "2.000"; lit "
"; lit "vp"; lit "2.485"; lit "-1.030"; lit "
"; lit "vp"; lit "1.605"; lit "-1.890"; lit "10.700"; lit "
"; lit "vp"; lit "-0.745"; lit "-0.654"; lit "0.500"; lit "
"; lit "cstype"; lit "rat"; lit "bezier"; lit "
"; lit "deg"; lit "3"; lit "
"; lit "curv2"; lit "-6"; lit "-5"; lit "-4"; lit "-3"; lit "-2"; lit "-1"; lit "-6"; lit "
"; lit "parm"; lit "u"; lit "0.00"; lit "1.00"; lit "2.00"; lit "
"; lit "end"; lit "
"; lit "
"; lit "vp"; lit "-0.185"; lit "0.322"; lit "
"; lit "vp"; lit "0.214"; lit "0.818"; lit "
"; lit "vp"; lit "1.652"; lit "0.207"; lit "
"; lit "vp"; lit "1.652"; lit "-0.455"; lit "
"; lit "curv2"; lit "-4"; lit "-3"; lit "-2"; lit "-1"; lit "
"; lit "parm"; lit "u"; lit "2.00"; lit "10.00"; lit "
"; lit "end"; lit "
"; lit "
"; lit "v"; lit "-1.350"; lit "-1.030"; lit "0.000"; lit "
"; lit "v"; lit "0.130"; lit "-1.030"; lit "0.432"; lit "7.600"; lit "
"; lit "v"; lit "1.480"; lit "-1.030"; lit "0.000"; lit "2.300"; lit "
"; lit "v"; lit "-1.460"; lit "0.060"; lit "0.201"; lit "
"; lit "v"; lit "0.120"; lit "0.060"; lit "0.915"; lit "0.500"; lit "
"; lit "v"; lit "1.380"; lit "0.060"; lit "0.454"; lit "1.500"; lit "
"; lit "v"; lit "-1.480"; lit "1.030"; lit "0.000"; lit "2.300"; lit "
"; lit "v"; lit "0.120"; lit "1.030"; lit "0.394"; lit "6.100"; lit "
"; lit "v"; lit "1.170"; lit "1.030"; lit "0.000"; lit "3.300"; lit "
"; lit "cstype"; lit "rat"; lit "bspline"; lit "
"; lit "deg"; lit "2"; lit "2"; lit "
"; lit "surf"; lit "-1.0"; lit "2.5"; lit "-2.0"; lit "2.0"; lit "-9"; lit "-8"; lit "-7"; lit "-6"; lit "-5"; lit "-4"; lit "-3"; lit "-2"; lit "-1"; lit "
"; lit "parm"; lit "u"; lit "-1.00"; lit "-1.00"; lit "-1.00"; lit "2.50"; lit "2.50"; lit "2.50"; lit "
"; lit "parm"; lit "v"; lit "-2.00"; lit "-2.00"; lit "-2.00"; lit "2.00"; lit "2.00"; lit "2.00"; lit "
"; lit "trim"; lit "0.0"; lit "2.0"; lit "1"; lit "
"; lit "scrv"; lit "4.2"; lit "9.7"; lit "2"; lit "
"; lit "end"; lit "
"].
Proof. vm_compute. reflexivity. Qed.
