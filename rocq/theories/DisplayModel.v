(** Model of the [Display] implementations of src/obj.rs and src/mtl.rs.

    What is written is a byte string; [None] is a panic.  Writing to a
    [Formatter] is taken not to fail (as for [to_string] and [format!]). *)
From Verif Require Export ObjTypes ParserBase RustFmt.
Local Open Scope list_scope.

(** [v + 1] on [usize]: a panic in a debug build if it overflows, otherwise it
    wraps around. *)
Definition add_one (dbg : bool) (v : nat) : option N :=
  if (N.of_nat v <? usize_max)%N then Some (N.of_nat v + 1)%N
  else if dbg then None else Some 0%N.

(** Texts one after the other; a panic in one is a panic of all. *)
Fixpoint join (parts : list (option bytes)) : option bytes :=
  match parts with
  | [] => Some []
  | p :: ps =>
      match p, join ps with
      | Some s, Some t => Some (s ++ t)
      | _, _ => None
      end
  end.

(** A literal piece of a format string. *)
Definition piece (s : string) : option bytes := Some (lit s).

(** obj.rs:132-136 *)
Definition show_vertex (v : vertex) : option bytes :=
  join [piece "v  "; Some (show_f64 (vx v)); piece "  "; Some (show_f64 (vy v)); piece "  ";
        Some (show_f64 (vz v)); piece "  "; Some (show_f64 (vw v))].

(** obj.rs:150-154 *)
Definition show_texture_vertex (v : texture_vertex) : option bytes :=
  join [piece "vt  "; Some (show_f64 (tu v)); piece "  "; Some (show_f64 (tv v)); piece "  "; Some (show_f64 (tw v))].

(** obj.rs:168-172 *)
Definition show_normal_vertex (v : normal_vertex) : option bytes :=
  join [piece "vn  "; Some (show_f64 (nx v)); piece "  "; Some (show_f64 (ny v)); piece "  "; Some (show_f64 (nz v))].

(** obj.rs:239-261 *)
Definition show_vtn_index (dbg : bool) (i : vtn_index) : option bytes :=
  let plus_one k := option_map show_N (add_one dbg k) in
  match i with
  | V v => join [plus_one v]
  | VT v vt => join [plus_one v; piece "/"; plus_one vt]
  | VN v vn => join [plus_one v; piece "//"; plus_one vn]
  | VTN v vt vn => join [plus_one v; piece "/"; plus_one vt; piece "/"; plus_one vn]
  end.

(** obj.rs:285-299 *)
Definition show_element (dbg : bool) (e : element) : option bytes :=
  match e with
  | Point a => join [piece "p  "; show_vtn_index dbg a]
  | Line a b => join [piece "l  "; show_vtn_index dbg a; piece "  "; show_vtn_index dbg b]
  | Face a b c =>
      join [piece "f  "; show_vtn_index dbg a; piece "  "; show_vtn_index dbg b; piece "  "; show_vtn_index dbg c]
  end.

(** obj.rs:308-312 *)
Definition show_group (g : group) : option bytes := Some g.

(** obj.rs:326-334 *)
Definition show_smoothing_group (n : smoothing_group) : option bytes :=
  if (n =? 0)%N then piece "off" else Some (show_N n).

(** [set[i]], displayed. *)
Definition show_at {A} (show : A -> option bytes) (set : list A) (i : nat) : option bytes :=
  match nth_error set i with
  | Some x => show x
  | None => None
  end.

(** "\n" *)
Definition newline : option bytes := Some nl.

(** obj.rs:531-541, [DisplayObjectCompositor::compose_set] *)
Definition compose_set {A} (show : A -> option bytes) (set : list A) (name : string) : option bytes :=
  join [piece "    "; piece name; piece " set:"; newline;
        match set with
        | [] => join [piece "        data: []"; newline]
        | _ => join [piece "        data: [("; show_at show set 0; piece ") ... (";
                     show_at show set (length set - 1); piece ")]"; newline]
        end;
        piece "        length: "; Some (show_nat (length set)); newline].

(** obj.rs:543-556, [DisplayObjectCompositor::compose]; the braces of line 553
    are not in a format string, so there are two of them *)
Definition compose (dbg : bool) (ob : object) : option bytes :=
  join [piece "Object {"; newline;
        piece "    name: "; Some (name ob); newline;
        compose_set show_vertex (vertex_set ob) "vertex";
        compose_set show_texture_vertex (texture_vertex_set ob) "texture vertex";
        compose_set show_normal_vertex (normal_vertex_set ob) "normal vertex";
        compose_set show_group (group_set ob) "group";
        compose_set show_smoothing_group (smoothing_group_set ob) "smoothing group";
        compose_set (show_element dbg) (element_set ob) "element";
        piece "}}"; newline].

(** obj.rs:559-564 *)
Definition show_object (dbg : bool) (ob : object) : option bytes := compose dbg ob.

(** obj.rs:576-590 *)
Definition show_object_set (dbg : bool) (set : object_set) : option bytes :=
  join [piece "ObjectSet {"; newline;
        join (map (fun ob => join [compose dbg ob; newline]) (objects set));
        piece "}"; newline].

(** obj.rs:648-656 and mtl.rs:260-268 *)
Definition show_parse_error {K} (e : parse_error K) : bytes :=
  lit "Parse error at line " ++ show_nat (err_line_number e) ++ lit ": " ++ err_message e.
