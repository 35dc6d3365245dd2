(** Containers.v -- what [reconstruct] (records/fillers/builtin_fillers/typing_fillers.py:179-225,
    232-306, 320-367) makes of the containers of the standard library.

    Py.v has the constructors of containers as parameters, and gives them elements that are
    already filled.  Here the classes have the constructors that Python gives them, and the
    elements are filled on demand, while the constructor iterates over them. *)
From Verif Require Import Base Py.

(** a container and what it holds, in order of iteration *)
Inductive cont (X : Type) :=
| CList (l : list X)
| CTuple (l : list X)
| CNamed (cls : nat) (l : list X)          (* an instance of a namedtuple class, its fields *)
| CSet (l : list X)
| CFrozen (l : list X)
| CDeque (maxlen : option nat) (l : list X)
| CStr (l : list X)                        (* a str, its characters *)
| CBytes (l : list X)                      (* bytes, its numbers *)
| CRange (l : list X).
Arguments CList {X}. Arguments CTuple {X}. Arguments CNamed {X}. Arguments CSet {X}. Arguments CFrozen {X}.
Arguments CDeque {X}. Arguments CStr {X}. Arguments CBytes {X}. Arguments CRange {X}.

(** a mapping and its items *)
Inductive mapp (X : Type) :=
| MDict (l : list (X * X))
| MOrdered (l : list (X * X))
| MDefault (factory : X) (l : list (X * X))
| MCounter (l : list (X * X)).
Arguments MDict {X}. Arguments MOrdered {X}. Arguments MDefault {X}. Arguments MCounter {X}.

(** what a for loop over the container yields *)
Definition contents {X} (c : cont X) : list X :=
  match c with
  | CList l | CTuple l | CNamed _ l | CSet l | CFrozen l | CDeque _ l | CStr l | CBytes l | CRange l => l
  end.
Definition pairs_of {X} (m : mapp X) : list (X * X) :=
  match m with MDict l | MOrdered l | MDefault _ l | MCounter l => l end.

(** the objects of the run time that constructors need *)
Record Builtins (obj W : Type) := {
  (** the contents of an object, if it is such a container *)
  view : obj -> option (cont obj);
  view_map : obj -> option (mapp obj);
  (** a new container *)
  fresh : cont obj -> M W obj;
  fresh_map : mapp obj -> M W obj;
  (** [hash(x)] works *)
  hashable : obj -> bool;
  (** [x == y], for keys *)
  key_eq : obj -> obj -> bool;
  (** the order in which a set yields its elements *)
  set_iter : list obj -> list obj;
  (** an itertools.chain object, and the characters of its repr *)
  iterator : obj;
  iterator_text : list obj;
  (** int(x), if x is an int between 0 and 255 *)
  is_byte : obj -> bool;
  is_int : obj -> bool;
  (** the tuple (k, v), the int n *)
  pair_obj : obj -> obj -> obj;
  int_obj : nat -> obj
}.
Arguments view {obj W} b. Arguments view_map {obj W} b. Arguments fresh {obj W} b. Arguments fresh_map {obj W} b.
Arguments hashable {obj W} b. Arguments key_eq {obj W} b. Arguments set_iter {obj W} b. Arguments iterator {obj W} b.
Arguments iterator_text {obj W} b. Arguments is_byte {obj W} b. Arguments is_int {obj W} b.
Arguments pair_obj {obj W} b. Arguments int_obj {obj W} b.

Section Containers.
Context {obj W : Type} (B : Builtins obj W).

Definition unhashable : exc := mkexc TypeError "unhashable type".

(** what is known of [x] in a set: an equal element is kept *)
Definition set_put (x : obj) (l : list obj) : list obj := if existsb (key_eq B x) l then l else l ++ [x].

(** set(iterable): element by element *)
Fixpoint set_from (g : list (M W obj)) (acc : list obj) : M W (list obj) :=
  match g with
  | [] => ret acc
  | m :: r => let* x := m in
              if hashable B x then set_from r (set_put x acc) else raise unhashable
  end.

(** bytes(iterable) *)
Fixpoint bytes_from (g : list (M W obj)) (acc : list obj) : M W (list obj) :=
  match g with
  | [] => ret acc
  | m :: r => let* x := m in
              if is_byte B x then bytes_from r (acc ++ [x])
              else if is_int B x then raise (mkexc ValueError "bytes must be in range(0, 256)")
              else raise (mkexc TypeError "object cannot be interpreted as an integer")
  end.

(** all elements of an iterator *)
Definition take_all (g : list (M W obj)) : M W (list obj) := mapM (fun m : M W obj => m) g.

(** a deque with a maxlen keeps the last elements *)
Definition last_n (n : option nat) (l : list obj) : list obj :=
  match n with Some n => skipn (List.length l - n) l | None => l end.

(** [type(initial)(elements)], and [type(initial)(elements, initial.maxlen)] for Deque fields
    (typing_fillers.py:260-267, 305-306), [elements] being an iterator that runs [g] on demand.
    str does not iterate over its argument, range and most namedtuples refuse it. *)
Definition construct_from (rk : rebuild_kind) (c : cont obj) (g : list (M W obj)) : M W obj :=
  match c with
  | CList _ => let* l := take_all g in fresh B (CList l)
  | CTuple _ => let* l := take_all g in fresh B (CTuple l)
  | CNamed n [_] => fresh B (CNamed n [iterator B])
  | CNamed _ _ => raise (mkexc TypeError "missing required positional arguments")
  | CSet _ => let* l := set_from g [] in fresh B (CSet (set_iter B l))
  | CFrozen _ => let* l := set_from g [] in fresh B (CFrozen (set_iter B l))
  | CDeque m _ =>
      let m' := match rk with RkDeque => m | _ => None end in
      let* l := take_all g in fresh B (CDeque m' (last_n m' l))
  | CStr _ => fresh B (CStr (iterator_text B))
  | CBytes _ => let* l := bytes_from g [] in fresh B (CBytes l)
  | CRange _ => raise (mkexc TypeError "chain object cannot be interpreted as an integer")
  end.

(** the validator of Tuple[T, ...] (typing_fillers.py:179-193) and of GenericIterableFiller
    (277-292).  [same x y] is [x is y]; [done] are the elements before, that filled to
    themselves; _split_at (232-246) gives the rest. *)
Fixpoint fill_on_demand (same : obj -> obj -> bool) (rk : rebuild_kind) (elt : obj -> M W obj)
    (v : obj) (c : cont obj) (done l : list obj) : M W obj :=
  match l with
  | [] => ret v
  | e :: r =>
      let* e' := elt e in
      if same e' e then fill_on_demand same rk elt v c (done ++ [e]) r
      else construct_from rk c (map ret done ++ ret e' :: map elt r)
  end.

Definition validate_on_demand same rk elt (v : obj) : M W obj :=
  match view B v with
  | None => raise (mkexc TypeError "object is not iterable")
  | Some c => fill_on_demand same rk elt v c [] (contents c)
  end.

(** ** Mappings *)

(** [d[k] = v]: the place and the key of an equal key are kept, the value is the last one *)
Fixpoint put_item (k v : obj) (l : list (obj * obj)) : list (obj * obj) :=
  match l with
  | [] => [(k, v)]
  | (k', v') :: r => if key_eq B k k' then (k', v) :: r else (k', v') :: put_item k v r
  end.

Fixpoint dict_from (l acc : list (obj * obj)) : M W (list (obj * obj)) :=
  match l with
  | [] => ret acc
  | (k, v) :: r => if hashable B k then dict_from r (put_item k v acc) else raise unhashable
  end.

(** Counter(pairs): counts the pairs themselves *)
Fixpoint count_items (l : list (obj * obj)) (acc : list (obj * nat)) : M W (list (obj * nat)) :=
  match l with
  | [] => ret acc
  | (k, v) :: r =>
      if hashable B (pair_obj B k v)
      then count_items r ((fix bump a := match a with
                                         | [] => [(pair_obj B k v, 1)]
                                         | (p, n) :: a' => if key_eq B (pair_obj B k v) p then (p, S n) :: a' else (p, n) :: bump a'
                                         end) acc)
      else raise unhashable
  end.

(** [type(initial)(tuples)], and [type(initial)(initial.default_factory, tuples)] for
    DefaultDict fields (typing_fillers.py:320-327, 366-367).  defaultdict(tuples) takes the list
    for its factory, which it is not. *)
Definition construct_map (rk : rebuild_kind) (m : mapp obj) (l : list (obj * obj)) : M W obj :=
  match m with
  | MDict _ => let* l' := dict_from l [] in fresh_map B (MDict l')
  | MOrdered _ => let* l' := dict_from l [] in fresh_map B (MOrdered l')
  | MDefault f _ =>
      match rk with
      | RkDefaultDict => let* l' := dict_from l [] in fresh_map B (MDefault f l')
      | _ => raise (mkexc TypeError "first argument must be callable or None")
      end
  | MCounter _ => let* l' := count_items l [] in fresh_map B (MCounter (map (fun pn => (fst pn, int_obj B (snd pn))) l'))
  end.

(** GenericMappingFiller's validator, typing_fillers.py:336-350 *)
Definition validate_map (same : obj -> obj -> bool) (rk : rebuild_kind) (fk fv : obj -> M W obj) (v : obj) : M W obj :=
  match view_map B v with
  | None => raise (mkexc AttributeError "items")
  | Some m =>
      let* l' := mapM (fun kv : obj * obj => let* k := fk (fst kv) in let* x := fv (snd kv) in ret (k, x)) (pairs_of m) in
      if forallb (fun p => same (fst (fst p)) (fst (snd p)) && same (snd (fst p)) (snd (snd p))) (combine (pairs_of m) l')
      then ret v
      else construct_map rk m l'
  end.
End Containers.
