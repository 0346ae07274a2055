(** A parser that is asked for a result more than once.  [parse_objset] and
    [parse_mtlset] borrow the parser, so that the caller still has it afterwards. *)
From Verif Require Export TokenSpec ParserBase.
Local Open Scope list_scope.

(** Some calls in turn and their results; each of them returned. *)
Inductive calls {S E A} (call : S -> outcome E A * S) : S -> list (outcome E A) -> S -> Prop :=
| calls_none p : calls call p [] p
| calls_ok p a p' rs q : call p = (Ok a, p') -> calls call p' rs q -> calls call p (Ok a :: rs) q
| calls_err p e p' rs q : call p = (Err e, p') -> calls call p' rs q -> calls call p (Err e :: rs) q.

(** What the results should be, [x] being the part of the text that has been
    used up and [z] the rest: each call is the parsing of the rest of the text
    alone.  After a success nothing is left.  After an error the part [y] in
    front of the place of the error is used up; its line is counted from the
    start of the whole text. *)
Inductive reports {K A} (parse : bytes -> outcome (parse_error K) A)
    (stops : list bytes -> K * bytes -> list bytes -> Prop) :
  bytes -> bytes -> list (outcome (parse_error K) A) -> Prop :=
| reports_none x z : reports parse stops x z []
| reports_ok x z a rs : parse z = Ok a -> reports parse stops (x ++ z) [] rs -> reports parse stops x z (Ok a :: rs)
| reports_err x y z k msg ts rest rs :
    parse (y ++ z) = Err (mkParseError (line_after y) k msg) ->
    tokenizes y ts -> tokenizes z rest -> tokenizes (y ++ z) (ts ++ rest) -> stops (ts ++ rest) (k, msg) rest ->
    reports parse stops (x ++ y) z rs ->
    reports parse stops x (y ++ z) (Err (mkParseError (line_after (x ++ y)) k msg) :: rs).
