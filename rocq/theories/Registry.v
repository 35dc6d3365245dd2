(** Registry.v -- how the class of a filler is found: records/fillers/get_filler.py:41-70 with
    the map and the list of checkers that records.fillers exports (builtin_fillers/repo.py), and
    what the library puts into them (fillers/__init__.py:10-12).

    Filler.v and Hints.v build in what these two hold when the library was imported; here
    programs can change them.

    Simplifications: annotations can be hashed; keys of the map and filler classes are true
    values; checkers have no side effects. *)
From Verif Require Import Base Py Filler Hints.
Open Scope list_scope.

(** classes of fillers; [CUser] are classes of the program *)
Inductive fclass :=
| CBool | CNone | CSimple | CEllipsis | CCallable
| CUnion | CLiteral | CType | CTuple | CIter (rk : rebuild_kind) | CMap (rk : rebuild_kind) | CGenN
| CUser (n : nat).

Section Registry.
(** annotations as objects, Annotated split off *)
Context {O : Type}.

(** what a checker returns: None, GetFiller(o) -- builtin_fillers/recurse.py --, or a class *)
Inductive checked := NoMatch | GetFiller (o : O) | Use (c : fclass).
Definition checker := O -> outcome checked.

(** builtin_filler_map and builtin_filler_checkers -- builtin_fillers/repo.py:6-15 *)
Record registry := Registry { fmap : list (O * fclass); checkers : list checker }.

(** [==], [isinstance(o, type)] and [issubclass], which raises if its second argument is not a
    class *)
Context (eqb : O -> O -> bool) (is_type : O -> bool) (issub : O -> O -> outcome bool).

Fixpoint find (o : O) (m : list (O * fclass)) : option fclass :=
  match m with
  | [] => None
  | (k, c) :: r => if eqb o k then Some c else find o r
  end.

(** get_filler.py:57-63 *)
Fixpoint ask (cs : list checker) (o : O) : outcome checked :=
  match cs with
  | [] => Ok NoMatch
  | c :: r => do a <- c o; match a with NoMatch => ask r o | _ => Ok a end
  end.

(** get_filler.py:66 *)
Fixpoint supertype (o : O) (m : list (O * fclass)) : outcome (option fclass) :=
  match m with
  | [] => Ok None
  | (k, c) :: r => do b <- issub o k; if b then Ok (Some c) else supertype o r
  end.

(** a filler of the class, for the origin; or a DumbFiller *)
Inductive made := Made (c : fclass) (o : O) | Dumb (o : O).

(** get_annotated_filler -- get_filler.py:41-70, as far as the class; a DumbFiller refuses
    tokens (68-69) *)
Fixpoint resolve (fuel : nat) (r : registry) (o : O) : outcome made :=
  match fuel with
  | 0 => Raise (mkexc RecursionError "maximum recursion depth exceeded")
  | S n =>
      match find o (fmap r) with
      | Some c => Ok (Made c o)
      | None =>
          do a <- ask (checkers r) o;
          match a with
          | GetFiller o' => resolve n r o'
          | Use c => Ok (Made c o)
          | NoMatch =>
              if is_type o
              then do s <- supertype o (fmap r); Ok (match s with Some c => Made c o | None => Dumb o end)
              else Ok (Dumb o)
          end
      end
  end.

(** [builtin_filler_map[k] = c]: a key that is there keeps its place *)
Fixpoint put (k : O) (c : fclass) (m : list (O * fclass)) : list (O * fclass) :=
  match m with
  | [] => [(k, c)]
  | (k', c') :: r => if eqb k k' then (k', c) :: r else (k', c') :: put k c r
  end.
(** [del builtin_filler_map[k]] *)
Definition del (k : O) (m : list (O * fclass)) : list (O * fclass) := filter (fun e => negb (eqb k (fst e))) m.

Definition register (k : O) (c : fclass) (r : registry) : registry := Registry (put k c (fmap r)) (checkers r).
Definition unregister (k : O) (r : registry) : registry := Registry (del k (fmap r)) (checkers r).
(** [builtin_filler_checkers.append(f)] *)
Definition append (f : checker) (r : registry) : registry := Registry (fmap r) (checkers r ++ [f]).

(** ** What the library puts there *)

(** what typing says about annotations: __supertype__, get_origin, get_args, TypeVars; and the
    objects that the library compares with *)
Context {ty : Type}.
Record Annots := {
  a_supertype : O -> option O;
  a_origin : O -> option O;
  a_args : O -> list O;
  a_typevar : O -> bool;
  a_class : ty -> O;
  a_none : O;
  a_any : O;
  a_callable : O;
  a_union : O;
  a_literal : O;
  a_callable_base : O
}.
Context {obj W : Type} (P : Py obj ty W) (G : O -> option generic_kind) (A : Annots).

(** std_filler_map -- std_fillers.py:358-363 *)
Definition std_map : list (O * fclass) :=
  [(a_class A (t_bool P), CBool); (a_class A (t_none P), CNone); (a_class A (t_object P), CSimple);
   (a_class A (t_ellipsis P), CEllipsis)].

(** std_fillers.py:368-371 *)
Definition callable_checker : checker := fun o => Ok (if eqb o (a_callable A) then Use CCallable else NoMatch).
(** std_fillers.py:374-377 *)
Definition none_checker : checker := fun o => Ok (if eqb o (a_none A) then GetFiller (a_class A (t_none P)) else NoMatch).

(** has_args -- typing_fillers.py:415-417 *)
Definition has_args (o : O) : bool := existsb (fun p => negb (a_typevar A p)) (a_args A o).

(** what genric_origin_map holds -- typing_fillers.py:391-412 *)
Definition generic_class (k : generic_kind) : fclass :=
  match k with GTuple => CTuple | GIter rk => CIter rk | GMap rk => CMap rk | GOther => CGenN end.

(** _typing -- typing_fillers.py:420-444 *)
Definition typing_checker : checker := fun o =>
  Ok (match a_supertype A o with
      | Some s => GetFiller s
      | None =>
          if eqb o (a_any A) then GetFiller (a_class A (t_object P)) else
          match a_origin A o with
          | None => NoMatch
          | Some g =>
              if eqb g (a_union A) then Use CUnion
              else if eqb g (a_literal A) then Use CLiteral
              else if eqb g (a_class A (t_type P)) then
                if has_args o then Use CType else GetFiller (a_class A (t_type P))
              else if eqb g (a_callable_base A) then GetFiller (a_callable A)
              else if has_args o then match G g with Some k => Use (generic_class k) | None => NoMatch end
              else GetFiller g
          end
      end).

(** fillers/__init__.py:10-12 *)
Definition library : registry := Registry std_map [callable_checker; none_checker; typing_checker].
End Registry.

Arguments checked : clear implicits.
Arguments checker : clear implicits.
Arguments registry : clear implicits.
Arguments made : clear implicits.
Arguments Annots : clear implicits.
