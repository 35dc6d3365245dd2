(** Record.v -- model of records/record.py:168-694: constructing, parsing, exporting,
    comparing, hashing, copying and pickling record instances. *)
From Verif Require Import Base Py Select Filler Classes Runtime.

Section Record.
Context {obj ty W : Type} (R : Rt obj ty W).
Notation P := (rt_py R).
Notation field := (@field obj ty W).
Notation cls := (@cls obj ty W).
Notation parser := (@parser obj W).
Notation inst := (inst obj ty).
(** the record classes there are, by type *)
Context (ctx : ty -> option cls).

Definition none := o_none P.
Definition is_none (x : obj) : bool := py_is P x none.

(** ** The heap *)

(** the record instance an object refers to *)
Definition lookup (w : W) (x : obj) : option inst :=
  match deref R x with Some n => nth_error (heap R w) n | None => None end.

Fixpoint replace (n : nat) (i : inst) (h : list inst) : list inst :=
  match h, n with
  | [], _ => []
  | _ :: r, O => i :: r
  | j :: r, S n => j :: replace n i r
  end.

Definition store (x : obj) (i : inst) (w : W) : W :=
  match deref R x with Some n => set_heap R (replace n i (heap R w)) w | None => w end.

(** [super().__new__(cls)], with __dict__ and _hash filled in -- records/record.py:232-236 *)
Definition alloc (c : cls) (values : dict obj) : M W obj :=
  fun w => (Ok (ref R (c_ty c) (List.length (heap R w))),
            set_heap R (heap R w ++ [Inst (c_ty c) values (if c_frozen c then SNone else SUnset)]) w).

(** [getattr(x, k)].  Simplification: the attributes of a record class found before the
    instance's __dict__ (data descriptors, __getattribute__) are not modelled. *)
Definition getattr (x : obj) (k : string) : M W obj :=
  fun w => match lookup w x with
           | Some i => match dget k (i_dict i) with Some v => (Ok v, w) | None => ext_attr R x k w end
           | None => ext_attr R x k w
           end.

(** the class of a record instance *)
Definition class_of (x : obj) (w : W) : option cls :=
  match lookup w x with Some i => ctx (i_cls i) | None => None end.

(** ** _to_dict -- records/record.py:291-395 *)

(** RecordField, or _MockField (291-298), as far as _to_dict looks at them *)
Record xfield := XField {
  x_name : string;
  x_tags : list nat;
  x_default : @default obj W
}.
Definition real_field (f : field) : xfield := XField (f_name f) (f_tags f) (f_default f).
Definition mock_field (k : string) : xfield := XField k [] NoDefault.

(** the arguments of _to_dict.  A blacklist that is not a Tag and not a set (a list, a
    tuple) makes [f.tags & blacklist_tags] raise.  [SortKey le] sorts by a key function
    whose values are ordered by [le]. *)
Inductive blacklist := BlackSet (l : list nat) | BlackOther.
Inductive sorting := SortNone | SortAsc | SortDesc | SortKey (le : string -> string -> bool).
Record export_args := ExportArgs {
  e_defaults : bool;
  e_sort : sorting;
  e_black : blacklist;
  e_white : list string
}.
Definition no_args : export_args := ExportArgs false SortNone (BlackSet []) [].

(** records/record.py:347-364 *)
Definition extraction (c : cls) (s : sel obj) : dict xfield :=
  let fs := map (fun kf => (fst kf, real_field (snd kf))) (c_fields c) in
  if fst (sel_truth s) then
    let fs := fold_left (fun d k => if dmem k (c_fields c) then d else dset k (mock_field k) d) (elements (s_rem s)) fs in
    let fs := fold_left (fun d sd => dset (fst sd) (mock_field (fst sd)) d) (elements (s_ren s)) fs in
    let fs := fold_left (fun d sd => dset (fst sd) (mock_field (fst sd)) d) (elements (s_mren s)) fs in
    fold_left (fun d kv => ddel (fst kv) d) (elements (s_add s)) fs
  else fs.

Definition missing_ok (c : cls) (s : sel obj) (k : string) : bool :=
  smem k (optional_keys (c_fields c)) ||
  (fst (sel_truth s) &&
   (existsb (fun sd => String.eqb k (snd sd)) (elements (s_ren s)) ||
    existsb (fun sd => String.eqb k (fst sd) || String.eqb k (snd sd)) (elements (s_mren s)))).

(** export_field, records/record.py:338-340 *)
Definition export_field (a : export_args) (f : xfield) : outcome bool :=
  if smem (x_name f) (e_white a) then Ok true else
  match e_black a with
  | BlackSet l => Ok (negb (existsb (fun t => existsb (Nat.eqb t) l) (x_tags f)))
  | BlackOther => Raise (mkexc TypeError "unsupported operand type(s) for &")
  end.

(** export_value, records/record.py:342-344, and RecordField.is_default, records/field.py:84-92 *)
Definition export_value (a : export_args) (f : xfield) (v : obj) : M W bool :=
  if smem (x_name f) (e_white a) || e_defaults a then ret true else
  match x_default f with
  | NoDefault | DefFactory _ => ret true
  | DefVal d => let* b := v_eq R d v in ret (negb b)
  end.

(** tuples, records/record.py:367-385 *)
Definition extract_one (ok : string -> bool) (x : obj) (a : export_args) (f : xfield) : M W (dict obj) :=
  fun w =>
  match export_field a f with
  | Raise e => (Raise e, w)
  | Ok false => (Ok [], w)
  | Ok true =>
      match getattr x (x_name f) w with
      | (Ok v, w1) => (let* b := export_value a f v in ret (if b then [(x_name f, v)] else [])) w1
      | (Raise e, w1) =>
          if is_AttributeError e then
              if negb (ok (x_name f)) then (Raise e, w1) else
              if e_defaults a then
                match x_default f with
                | NoDefault => (Ok [], w1)
                | DefVal d => (Ok [(x_name f, d)], w1)
                | DefFactory g => (let* d := g in ret [(x_name f, d)]) w1
                end
              else (Ok [], w1)
          else (Raise e, w1)
      end
  end.

Fixpoint extract (ok : string -> bool) (x : obj) (a : export_args) (fs : list xfield) : M W (dict obj) :=
  match fs with
  | [] => ret []
  | f :: r =>
      let* h := extract_one ok x a f in
      let* t := extract ok x a r in
      ret (h ++ t)
  end.

(** sorted(...), which is stable; with reverse=True it is stable too.  The pairs have
    different names, so that comparing them never looks at the values. *)
Fixpoint insert_by (le : string -> string -> bool) (kv : string * obj) (l : dict obj) : dict obj :=
  match l with
  | [] => [kv]
  | kv' :: r => if le (fst kv) (fst kv') then kv :: l else kv' :: insert_by le kv r
  end.
Definition sort_by (le : string -> string -> bool) (l : dict obj) : dict obj := fold_right (insert_by le) [] l.

(** records/record.py:387-395 *)
Definition sort_items (s : sorting) (l : dict obj) : dict obj :=
  match s with
  | SortNone => l
  | SortAsc => sort_by String.leb l
  | SortDesc => sort_by (fun a b => String.leb b a) l
  | SortKey le => sort_by le l
  end.

(** RecordBase._to_dict -- records/record.py:300-395 *)
Definition to_dict_of (c : cls) (x : obj) (a : export_args) (s : sel obj) : M W (dict obj) :=
  let* l := extract (missing_ok c s) x a (map snd (extraction c s)) in
  ret (sort_items (e_sort a) l).

(** the class of [self]; on something that is not a record the method does not exist *)
Definition with_class {A} (x : obj) (k : cls -> M W A) : M W A :=
  fun w => match class_of x w with
           | Some c => k c w
           | None => (Raise (mkexc AttributeError "not a record"), w)
           end.

(** p.to_dict.select(s)(...) -- records/record.py:596-605, records/select.py:279-292, 362-369 *)
Definition to_dict (x : obj) (a : export_args) (s : sel obj) : M W (dict obj) :=
  with_class x (fun c => let* d := to_dict_of c x a sel_empty in lift (sel_apply s d)).

(** p.to_json() without io -- records/record.py:607-626 *)
Definition to_json (x : obj) (a : export_args) (s : sel obj) : M W obj :=
  let* d := to_dict x a s in json_dumps R d.

(** RecordBase.__repr__ -- records/record.py:269-279 *)
Fixpoint join_parts (l : list string) : string :=
  match l with
  | [] => ""
  | [s] => s
  | s :: r => s ++ ", " ++ join_parts r
  end%string.
Definition repr (x : obj) (a : export_args) : M W string :=
  with_class x (fun c =>
  let* d := to_dict x a sel_empty in
  let* parts := mapM (fun kv => let* s := v_repr R (snd kv) in ret (fst kv ++ "=" ++ s)%string) d in
  ret (type_name R (c_ty c) ++ "(" ++ join_parts parts ++ ")")%string).

(** ** Hash, equality, attributes *)

(** hash(p): RecordBase.__hash__ -- records/record.py:411-420; None for classes that are
    not frozen (141-146) *)
Definition record_hash (x : obj) : M W Z :=
  fun w => match lookup w x with
  | None => v_hash R x w
  | Some i =>
    match ctx (i_cls i) with
    | None => v_hash R x w
    | Some c =>
      if negb (c_frozen c) then (Raise (mkexc TypeError "unhashable type"), w) else
      match i_hash i with
      | SUnset => (Raise (mkexc AttributeError "_hash"), w)
      | SBad => (Raise (mkexc TypeError "__hash__ method should return an integer"), w)
      | SHash z => (Ok z, w)
      | SNone =>
          (let* d := to_dict x no_args sel_empty in
           let* hs := mapM (v_hash R) (dvalues d) in
           fun w1 => (Ok (tuple_hash R hs),
                      match lookup w1 x with
                      | Some j => store x (Inst (i_cls j) (i_dict j) (SHash (tuple_hash R hs))) w1
                      | None => w1
                      end)) w
      end
    end
  end.

(** p == q: RecordBase.__eq__ -- records/record.py:281-289.  Whichever operand Python asks
    first, the answer for different types is False. *)
Fixpoint fields_equal (ks : list string) (x y : obj) : M W bool :=
  match ks with
  | [] => ret true
  | k :: r =>
      let* a := getattr x k in
      let* b := getattr y k in
      let* d := v_ne R a b in
      if d then ret false else fields_equal r x y
  end.
Definition record_eq (x y : obj) : M W bool :=
  with_class x (fun c =>
  if negb (ty_eqb P (type_of P x) (type_of P y)) then ret false else
  let* same := (if c_frozen c
                then let* a := record_hash x in let* b := record_hash y in ret (Z.eqb a b)
                else ret true) in
  if negb same then ret false else fields_equal (keys (c_fields c)) x y).

(** p.k = v: RecordBase.__setattr__ -- records/record.py:422-426 -- or object.__setattr__
    (141-146) *)
Definition setattr (x : obj) (k : string) (v : obj) : M W unit :=
  fun w => match lookup w x with
  | None => (Raise (mkexc AttributeError k), w)
  | Some i =>
      let set_slot := (Ok tt, store x (Inst (i_cls i) (i_dict i)
          (if is_none v then SNone else match int_of R v with Some z => SHash z | None => SBad end)) w) in
      match ctx (i_cls i) with
      | None => (Raise (mkexc AttributeError k), w)
      | Some c =>
          if String.eqb k "_hash" then set_slot else
          if c_frozen c then (Raise (mkexc TypeError "is frozen"), w)
          else (Ok tt, store x (Inst (i_cls i) (dset k v (i_dict i)) (i_hash i)) w)
      end
  end.

(** del p.k: no record class overrides object.__delattr__ *)
Definition delattr (x : obj) (k : string) : M W unit :=
  fun w => match lookup w x with
  | None => (Raise (mkexc AttributeError k), w)
  | Some i =>
      if String.eqb k "_hash" then
        match i_hash i with
        | SUnset => (Raise (mkexc AttributeError k), w)
        | _ => (Ok tt, store x (Inst (i_cls i) (i_dict i) SUnset) w)
        end
      else if dmem k (i_dict i) then (Ok tt, store x (Inst (i_cls i) (ddel k (i_dict i)) (i_hash i)) w)
      else (Raise (mkexc AttributeError k), w)
  end.

(** ** Ordering -- records/record.py:655-694 *)

(** the tag exclude_from_ordering *)
Definition exclude_tag : nat := 0.

Definition ordering_key (x : obj) : M W (list obj) :=
  with_class x (fun c =>
  mapM (getattr x) (keys (filter (fun kf => negb (existsb (Nat.eqb exclude_tag) (f_tags (snd kf)))) (c_fields c)))).

(** comparison of two lists: the first position where they differ decides *)
Fixpoint list_cmp (op : cmp) (xs ys : list obj) : M W bool :=
  match xs, ys with
  | x :: xr, y :: yr =>
      let* same := (if py_is P x y then ret true else v_eq R x y) in
      if same then list_cmp op xr yr else v_cmp R op x y
  | [], [] => ret (match op with CLe | CGe => true | _ => false end)
  | [], _ :: _ => ret (match op with CLt | CLe => true | _ => false end)
  | _ :: _, [] => ret (match op with CGt | CGe => true | _ => false end)
  end.

(** x.__lt__(y) etc.; None is NotImplemented *)
Definition cmp_method (op : cmp) (x y : obj) : M W (option bool) :=
  fun w => match class_of x w with
  | None => ext_cmp R op x y w
  | Some c =>
      if negb (c_ordered c) then (Raise (mkexc TypeError "cannot compare with non-ordered type"), w) else
      if negb (isinstance P y (type_of P x)) then (Ok None, w) else
      (let* a := ordering_key x in
       let* b := ordering_key y in
       let* r := list_cmp op a b in
       ret (Some r)) w
  end.

Definition mirror (op : cmp) : cmp := match op with CLt => CGt | CLe => CGe | CGt => CLt | CGe => CLe end.

(** [x op y]: Python asks the right operand first if its class is a proper subclass *)
Definition compare (op : cmp) (x y : obj) : M W bool :=
  let no := raise (mkexc TypeError "not supported between instances") in
  if isinstance P y (type_of P x) && negb (ty_eqb P (type_of P y) (type_of P x)) then
    let* r := cmp_method (mirror op) y x in
    match r with
    | Some b => ret b
    | None => let* r := cmp_method op x y in match r with Some b => ret b | None => no end
    end
  else
    let* r := cmp_method op x y in
    match r with
    | Some b => ret b
    | None => let* r := cmp_method (mirror op) y x in match r with Some b => ret b | None => no end
    end.

(** ** Construction -- records/record.py:168-252 *)

(** the exception __new__ raises for a filling error -- records/record.py:219-226.  Only a TypeError
    of the constructor of the exception is caught. *)
Definition rewrap (k : string) (e : exc) : exc :=
  let msg := ("error filling filling " ++ k)%string in
  match exc_ctor (exc_cls e) with
  | CtorStr => Exc (exc_cls e) msg (Some e)
  | CtorTypeError => Exc ValueError msg (Some e)
  | CtorFails n => mkexc (UserExc n CtorStr) "raised by the constructor of the exception"
  end.

(** records/record.py:212-226; None means [return parsing] *)
Fixpoint fill_kwargs (c : cls) (parsing : obj) (kw : dict obj) : M W (option (dict obj)) :=
  match kw with
  | [] => ret (Some [])
  | (k, v) :: r =>
      fun w => match dget k (c_fields c) with
      | None => (Raise (mkexc KeyError k), w)
      | Some f =>
          match call P (f_filler f) v w with
          | (Ok y, w1) => (let* ys := fill_kwargs c parsing r in
                           ret (match ys with Some ys => Some ((k, y) :: ys) | None => None end)) w1
          | (Raise e, w1) =>
              if negb (is_Exception e) then (Raise e, w1) else
              if is_none parsing then (Raise (rewrap k e), w1) else (Ok None, w1)
          end
      end
  end.

(** records/record.py:230-231, in the order the set of names gives *)
Fixpoint fill_defaults (c : cls) (ks : list string) : M W (dict obj) :=
  match ks with
  | [] => ret []
  | k :: r =>
      let* v := (match dget k (c_fields c) with Some f => make_default f | None => raise (mkexc KeyError k) end) in
      let* vs := fill_defaults c r in
      ret ((k, v) :: vs)
  end.

(** records/record.py:232-252 *)
Definition finish (c : cls) (parsing : obj) (values : dict obj) : M W obj :=
  let* self := alloc c values in
  fun w =>
  match (let* r := c_post_new c self in let* t := truth R r in ret (if t then r else self)) w with
  | (Ok s, w1) => if is_none parsing then (Ok s, w1)
                  else (Raise (mkexc TypeError "positional argument can be interpreted both as trivial argument and as unary argument"), w1)
  | (Raise e, w1) =>
      if negb (is_Exception e) then (Raise e, w1) else
      (let* t := truth R parsing in if t then ret parsing else raise e) w1
  end.

(** records/record.py:207-231 *)
Definition build (c : cls) (parsing : obj) (kw : dict obj) : M W obj :=
  if negb (forallb (fun k => dmem k (c_fields c)) (keys kw))
  then raise (mkexc TypeError "arguments invalid for type")
  else
    let* values := fill_kwargs c parsing kw in
    match values with
    | None => ret parsing
    | Some values =>
        if negb (forallb (fun k => dmem k kw) (required_keys (c_fields c)))
        then raise (mkexc TypeError "missing required arguments")
        else
          let* defaults := (fun w => fill_defaults c (set_order R w (filter (fun k => negb (dmem k kw)) (optional_keys (c_fields c)))) w) in
          finish c parsing (values ++ defaults)
    end.

(** [try: m  except ParseFailure as e: h e] *)
Definition catch_parse_failure {A} (m : M W A) (h : exc -> M W A) : M W A :=
  fun w => match m w with
           | (Ok a, w') => (Ok a, w')
           | (Raise e, w') => if is_ParseFailure e then h e w' else (Raise e, w')
           end.

(** ** Factories and parsing, given the constructor [mk] of the class *)
Section Factories.
Variable mk : dict obj -> M W obj.

(** from_mapping -- records/record.py:431-449: [ChainMap( *maps, dict( **kwargs ))].  Iterating a
    ChainMap goes through the maps from last to first; looking up a key goes from first to
    last. *)
Fixpoint chain_keys (rmaps : list obj) (seen : list string) : M W (list string) :=
  match rmaps with
  | [] => ret seen
  | m :: r =>
      let* ks := m_iter R m in
      chain_keys r (fold_left (fun acc k => if smem k acc then acc else acc ++ [k]) ks seen)
  end.
Fixpoint chain_item (maps : list obj) (kw : dict obj) (k : string) : M W obj :=
  match maps with
  | [] => match dget k kw with Some v => ret v | None => raise (mkexc KeyError k) end
  | m :: r =>
      fun w => match m_item R m k w with
      | (Ok v, w1) => (Ok v, w1)
      | (Raise e, w1) => if is_KeyError e then chain_item r kw k w1 else (Raise e, w1)
      end
  end.
Definition chain_map (maps : list obj) (kw : dict obj) : M W (dict obj) :=
  let* ks := chain_keys (rev maps) (keys kw) in
  mapM (fun k => let* v := chain_item maps kw k in ret (k, v)) ks.

Definition from_mapping_with (s : sel obj) (maps : list obj) (kw : dict obj) : M W obj :=
  let* d := chain_map maps kw in
  let* d := lift (sel_apply s d) in
  mk d.

(** from_instance with its shortcut -- records/record.py:451-485, records/select.py:216-253 *)
Definition update_dict (d : dict obj) (maps : list obj) (kw : dict obj) : M W (dict obj) :=
  match maps with
  | [] => ret (dupdate d kw)
  | [m] => let* e := as_dict R m in ret (dupdate (dupdate d e) kw)
  | _ => raise (mkexc TypeError "update expected at most 1 argument")
  end.
Definition from_instance_with (c : cls) (s : sel obj) (v : obj) (maps : list obj) (kw : dict obj) : M W obj :=
  if negb (fst (sel_truth s)) && c_frozen c && (match maps with [] => true | _ => false end)
     && (match kw with [] => true | _ => false end) && isinstance P v (c_ty c)
  then ret v
  else
    let* d := to_dict_of c v no_args s in
    let* d := update_dict d maps kw in
    let* d := lift (sel_apply s d) in
    mk d.

(** from_json -- records/record.py:487-505.  A Select that is not empty turns the loaded
    object into a dict first (records/select.py:112-115). *)
Definition from_json_with (s : sel obj) (v : obj) : M W obj :=
  let* x := json_loads R v in
  let* d := (if fst (sel_truth s) then as_dict R x else unpack R x) in
  let* d := lift (sel_apply s d) in
  mk d.

Definition run_parser (c : cls) (p : parser) (v : obj) : M W obj :=
  match p with
  | PFromInstance => from_instance_with c sel_empty v [] []
  | PFromJson => from_json_with sel_empty v
  | PFromMapping => from_mapping_with sel_empty [v] []
  | PUser f => f v
  end.

(** parse -- records/record.py:568-594 *)
Fixpoint attempt_parsers (c : cls) (ps : list parser) (v : obj) : M W (list obj) :=
  match ps with
  | [] => ret []
  | p :: r => fun w =>
      match run_parser c p v w with
      | (Ok x, w1) => (let* xs := attempt_parsers c r v in ret (x :: xs)) w1
      | (Raise e, w1) => if is_Exception e then attempt_parsers c r v w1 else (Raise e, w1)
      end
  end.
Definition parse_with (c : cls) (v : obj) : M W obj :=
  let* xs := attempt_parsers c (c_parsers c) v in
  match xs with
  | [] => raise (mkexc ParseFailure "cannot parse")
  | [x] => ret x
  | _ => raise (mkexc TypeError "multiple unary constructors succeeded")
  end.
End Factories.

(** [type.__call__(cls, ...)]: binding the arguments of __new__(cls, arg=NO_ARG, ...)
    and of __init__(self, arg=NO_ARG, ...) (records/record.py:168, 265-267).
    Simplification: the class does not inherit another __init__. *)
Definition call_cls (new : option obj -> dict obj -> M W obj) (c : cls) (pos : option obj) (kw : dict obj) : M W obj :=
  if dmem "cls" kw then raise (mkexc TypeError "multiple values for argument 'cls'") else
  let* r := (match pos, dget "arg" kw with
             | Some _, Some _ => raise (mkexc TypeError "multiple values for argument 'arg'")
             | None, Some a => new (Some a) (ddel "arg" kw)
             | _, None => new pos kw
             end) in
  if isinstance P r (c_ty c) && dmem "self" kw then raise (mkexc TypeError "multiple values for argument 'self'")
  else ret r.

(** RecordBase.__new__ -- records/record.py:168-252.  [fuel] bounds the depth to which the
    constructor calls itself through a parser (a mapping {'arg': {'arg': ...}}); Python has
    such a bound too. *)
Fixpoint new (fuel : nat) (c : cls) (arg : option obj) (kw : dict obj) {struct fuel} : M W obj :=
  match fuel with
  | O => raise (mkexc RecursionError "maximum recursion depth exceeded")
  | S n =>
      match arg with
      | None => build c none kw
      | Some a =>
          let one := Nat.eqb (List.length (required_keys (c_fields c))) 1 in
          let* parsing := (match kw with
                           | [] => if c_unary c
                                   then catch_parse_failure (parse_with (call_cls (new n c) c None) c a)
                                          (fun e => if one then ret none else raise e)
                                   else ret none
                           | _ => ret none
                           end) in
          if negb one then
            if is_none parsing then raise (mkexc TypeError "class accepts no positional arguments") else ret parsing
          else
            match required_keys (c_fields c) with
            | k :: _ => if dmem k kw then raise (mkexc TypeError ("duplicate " ++ k)%string)
                        else build c parsing (kw ++ [(k, a)])
            | [] => raise (mkexc RuntimeError "StopIteration")
            end
      end
  end.

(** cls(...) and the factories of a class *)
Definition construct (fuel : nat) (c : cls) (pos : option obj) (kw : dict obj) : M W obj := call_cls (new fuel c) c pos kw.
Definition from_mapping (fuel : nat) (c : cls) := from_mapping_with (construct fuel c None).
Definition from_instance (fuel : nat) (c : cls) := from_instance_with (construct fuel c None) c.
Definition from_json (fuel : nat) (c : cls) := from_json_with (construct fuel c None).
Definition parse (fuel : nat) (c : cls) := parse_with (construct fuel c None) c.

(** ** Copying and pickling *)

(** copy.copy(p): RecordBase.__copy__ -- records/record.py:644-647 *)
Definition copy (fuel : nat) (x : obj) : M W obj :=
  with_class x (fun c => if c_frozen c then ret x else from_instance fuel c sel_empty x [] []).

(** copy.deepcopy(p): RecordBase.__deepcopy__ -- records/record.py:649-653 *)
Definition deepcopy (fuel : nat) (x : obj) : M W obj :=
  with_class x (fun c =>
  let* d := to_dict x no_args sel_empty in
  let* vs := deep_copy R (dvalues d) in
  construct fuel c None (combine (keys d) vs)).

(** pickle.loads(pickle.dumps(p)), protocol 2 or later: object.__reduce_ex__ takes the
    arguments from __getnewargs_ex__ (records/record.py:428-429), and the state is the
    __dict__ and the slot.  Unpickling calls cls.__new__ and then writes the state into
    what it returned.  Simplification: the result of __new__ is a record. *)
Definition unpickle (fuel : nat) (c : cls) (kw : dict obj) (state : dict obj) (h : slot) : M W obj :=
  if dmem "cls" kw then raise (mkexc TypeError "multiple values for argument 'cls'") else
  let* x := (match dget "arg" kw with
             | Some a => new fuel c (Some a) (ddel "arg" kw)
             | None => new fuel c None kw
             end) in
  fun w => (Ok x, match lookup w x with
                  | Some i => store x (Inst (i_cls i) (dupdate (i_dict i) state)
                                            (match h with SUnset => i_hash i | _ => h end)) w
                  | None => w
                  end).
Definition pickle_state (x : obj) : M W (dict obj * dict obj * slot) :=
  let* kw := to_dict x no_args sel_empty in
  fun w => match lookup w x with
           | Some i => (Ok (kw, i_dict i, i_hash i), w)
           | None => (Raise (mkexc AttributeError "not a record"), w)
           end.
(** the copied values: an object in both is copied once *)
Definition pickle_copy (fuel : nat) (x : obj) : M W obj :=
  with_class x (fun c =>
  let* st := pickle_state x in
  let '(kw, d, h) := st in
  let* vs := pickle_values R (dvalues d) in
  let d' := combine (keys d) vs in
  unpickle fuel c (flat_map (fun k => match dget k d' with Some v => [(k, v)] | None => [] end) (keys kw)) d' h).

(** from_pickle on what pickle.loads returned -- records/record.py:524-544 *)
Definition from_pickled (fuel : nat) (c : cls) (v : obj) : M W obj :=
  if isinstance P v (c_ty c) then ret v else parse fuel c v.

End Record.
