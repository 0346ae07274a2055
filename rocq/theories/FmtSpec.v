(** What the documentation of [Display] for [f64] says: the shortest decimal
    number that reads back, and the nearest one of these. *)
From Verif Require Export FloatSpec.
Local Open Scope char_scope.
Local Open Scope list_scope.

(** At most [n] significant digits. *)
Definition at_most_digits (n : N) (m : N) : Prop := exists q i, m = (q * 10 ^ i)%N /\ (q < 10 ^ n)%N.

(** [m * 10^e], with the sign [neg], is read as [x]; no number with fewer digits
    is; none with as many is nearer to [x]; of two that are equally near it is the
    larger one (not counting the sign). *)
Definition best_decimal (neg : bool) (m : N) (e : Z) (x : f64) : Prop :=
  nearest neg (decimal neg m e) x /\
  (forall m' e' n, nearest neg (decimal neg m' e') x -> at_most_digits n m' -> at_most_digits n m) /\
  (forall m' e', nearest neg (decimal neg m' e') x -> (forall n, at_most_digits n m -> at_most_digits n m') ->
     (Rabs (decimal neg m e - value x) <= Rabs (decimal neg m' e' - value x))%R /\
     (Rabs (decimal neg m e - value x) = Rabs (decimal neg m' e' - value x) ->
        Rabs (decimal neg m' e') <= Rabs (decimal neg m e))%R).

(** Digits without a zero in front that could be left out. *)
Definition plain_integer (a : bytes) : Prop := a = ["0"] \/ exists c a', a = c :: a' /\ c <> "0".

(** The notation: no exponent, no superfluous zeros. *)
Inductive plain_text : bytes -> bool -> N -> nat -> Prop :=
| plain_whole (neg : bool) (a : bytes) m : plain_integer a -> digits a m ->
    plain_text ((if neg then ["-"] else []) ++ a) neg m 0
| plain_point (neg : bool) (a b : bytes) (c : ascii) m : plain_integer a -> digits (a ++ b ++ [c]) m -> c <> "0" ->
    plain_text ((if neg then ["-"] else []) ++ a ++ "." :: b ++ [c]) neg m (S (List.length b)).

(** The text of a number. *)
Inductive number_text : bytes -> f64 -> Prop :=
| text_finite t s m e d k : plain_text t s d k -> best_decimal s d (- Z.of_nat k) (S754_finite s m e) ->
    number_text t (S754_finite s m e)
| text_zero (s : bool) : number_text (if s then lit "-0" else lit "0") (S754_zero s)
| text_infinity (s : bool) : number_text (if s then lit "-inf" else lit "inf") (S754_infinity s)
| text_nan : number_text (lit "NaN") S754_nan.
