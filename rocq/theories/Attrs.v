(** Attrs.v -- how the methods of RecordBase find each other: they look names up on the
    record or on its class, where a field, or an attribute of the record, may have the name
    of a method.

    Record.v takes every such lookup to find what RecordBase defines.  Here the lookups are
    made.  A field stands in its class as a RecordField (records/record.py:118-121), which
    can not be called; its value stands in the __dict__ of a record, where it hides methods
    of the class.

    Simplifications: names that begin and end with two underscores, or that Python mangles
    (__ordering_key), are not looked at; neither are the names of the keyword arguments of
    a method.  Fields that disturb the class statement are in Statement.v. *)
From Verif Require Import Base Py Select Filler Classes Runtime Record.
Open Scope string_scope.
Open Scope list_scope.

(** what Python does with a value where a method was expected *)
Record Calls (obj W : Type) := {
  (** [v( *args )] *)
  call_value : obj -> list obj -> M W obj;
  (** [v.items()] and [v.values()] *)
  items_of : obj -> M W (dict obj);
  (** a dict, an int *)
  dict_obj : dict obj -> obj;
  int_obj : Z -> obj
}.
Arguments call_value {obj W}.
Arguments items_of {obj W}.
Arguments dict_obj {obj W}.
Arguments int_obj {obj W}.

Section Attrs.
Context {obj ty W : Type} (R : Rt obj ty W).
Notation P := (rt_py R).
Notation cls := (@cls obj ty W).
Notation parser := (@parser obj W).
Context (ctx : ty -> option cls) (K : Calls obj W).

(** what a name stands for: what the library defines, a RecordField, a value of the record *)
Inductive attribute := Library | OfField | Value (v : obj).

(** [cls.k] *)
Definition on_class (c : cls) (k : string) : attribute := if dmem k (c_fields c) then OfField else Library.

(** [x.k] for a method or class attribute [k] of RecordBase *)
Definition on_instance (c : cls) (x : obj) (k : string) : M W attribute :=
  fun w => (Ok match lookup R w x with
               | Some i => match dget k (i_dict i) with Some v => Value v | None => on_class c k end
               | None => on_class c k
               end, w).

(** [a( *args )]: [lib] if it is the library's method; otherwise the result of the call, used
    as [conv] says *)
Definition call_attr {A} (a : attribute) (lib : M W A) (args : list obj) (conv : obj -> M W A) : M W A :=
  match a with
  | Library => lib
  | OfField => raise (mkexc TypeError "'RecordField' object is not callable")
  | Value v => let* r := call_value K v args in conv r
  end.

(** a field that the class itself adds.  [cls._frozen = ...] and [cls._ordered = ...] come
    before the fields are set on the class (records/record.py:104-121). *)
Definition own_field (c : cls) (k : string) : bool :=
  match dget k (c_fields c) with Some f => ty_eqb P (f_owner f) (c_ty c) | None => false end.

(** [cls._frozen] and [cls._ordered] in a condition: a RecordField is true *)
Definition frozen_flag (c : cls) : bool := own_field c "_frozen" || c_frozen c.
Definition ordered_flag (c : cls) : bool := own_field c "_ordered" || c_ordered c.

(** [type(self).is_frozen()], [cls.is_frozen()] -- records/record.py:397-402 *)
Definition class_is_frozen (c : cls) : M W bool :=
  call_attr (on_class c "is_frozen") (ret (frozen_flag c)) [] (truth R).

(** [self.to_dict()] -- records/record.py:596-605.  What it wraps is found by looking
    [_to_dict] up on the record (records/select.py:279-292). *)
Definition to_dict_n (x : obj) (a : export_args) : M W (dict obj) :=
  with_class R ctx x (fun c =>
  let* m := on_instance c x "to_dict" in
  call_attr m
    (let* m' := on_instance c x "_to_dict" in
     call_attr m' (to_dict R ctx x a sel_empty) [x] (items_of K))
    [] (items_of K)).

(** RecordBase.__repr__ -- records/record.py:269-279 *)
Definition repr_n (x : obj) (a : export_args) : M W string :=
  with_class R ctx x (fun c =>
  let* d := to_dict_n x a in
  let* parts := mapM (fun kv => let* s := v_repr R (snd kv) in ret (fst kv ++ "=" ++ s)%string) d in
  ret (type_name R (c_ty c) ++ "(" ++ join_parts parts ++ ")")%string).

(** RecordBase.__hash__ -- records/record.py:411-420.  A field called _hash hides the slot: then
    [self._hash] is the value of the field, and assigning to it assigns to the field. *)
Definition hash_n (x : obj) : M W Z :=
  fun w => match lookup R w x with
  | None => v_hash R x w
  | Some i =>
    match ctx (i_cls i) with
    | None => v_hash R x w
    | Some c =>
      if negb (c_frozen c) then (Raise (mkexc TypeError "unhashable type"), w) else
      let values := (let* d := to_dict_n x no_args in mapM (v_hash R) (dvalues d)) in
      let bad := Raise (mkexc TypeError "__hash__ method should return an integer") in
      if dmem "_hash" (c_fields c) then
        match dget "_hash" (i_dict i) with
        | None => (bad, w)
        | Some v =>
            if is_none R v then
              (let* hs := values in
               fun w1 => (Ok (tuple_hash R hs),
                          match lookup R w1 x with
                          | Some j => store R x (Inst (i_cls j) (dset "_hash" (int_obj K (tuple_hash R hs)) (i_dict j)) (i_hash j)) w1
                          | None => w1
                          end)) w
            else match int_of R v with Some z => (Ok z, w) | None => (bad, w) end
        end
      else
        match i_hash i with
        | SUnset => (Raise (mkexc AttributeError "_hash"), w)
        | SBad => (bad, w)
        | SHash z => (Ok z, w)
        | SNone =>
            (let* hs := values in
             fun w1 => (Ok (tuple_hash R hs),
                        match lookup R w1 x with
                        | Some j => store R x (Inst (i_cls j) (i_dict j) (SHash (tuple_hash R hs))) w1
                        | None => w1
                        end)) w
        end
    end
  end.

(** RecordBase.__eq__ -- records/record.py:281-289 *)
Definition eq_n (x y : obj) : M W bool :=
  with_class R ctx x (fun c =>
  if negb (ty_eqb P (type_of P x) (type_of P y)) then ret false else
  let* frozen := class_is_frozen c in
  let* same := (if frozen
                then let* a := hash_n x in let* b := hash_n y in ret (Z.eqb a b)
                else ret true) in
  if negb same then ret false else
  let* m := on_instance c x "_fields" in
  let* names := (match m with Value v => m_iter R v | _ => ret (keys (c_fields c)) end) in
  fields_equal R names x y).

(** x.__lt__(y) etc. -- records/record.py:667-694 *)
Definition cmp_method_n (op : cmp) (x y : obj) : M W (option bool) :=
  fun w => match class_of R ctx x w with
  | None => ext_cmp R op x y w
  | Some c =>
      (let* m := on_instance c x "_check_comparable" in
       let* _ := call_attr m (if ordered_flag c then ret tt
                              else raise (mkexc TypeError "cannot compare with non-ordered type"))
                           [] (fun _ => ret tt) in
       if negb (isinstance P y (type_of P x)) then ret None else
       let* a := ordering_key R ctx x in
       let* b := ordering_key R ctx y in
       let* r := list_cmp R op a b in
       ret (Some r)) w
  end.

(** ** Construction *)

(** records/record.py:232-236.  A field called _hash is written over by [self._hash = None]. *)
Definition alloc_n (c : cls) (values : dict obj) : M W obj :=
  fun w => (Ok (ref R (c_ty c) (List.length (heap R w))),
            set_heap R (heap R w ++
              [if frozen_flag c then
                 if dmem "_hash" (c_fields c) then Inst (c_ty c) (dset "_hash" (o_none P) values) SUnset
                 else Inst (c_ty c) values SNone
               else Inst (c_ty c) values SUnset]) w).

(** records/record.py:232-252 *)
Definition finish_n (c : cls) (parsing : obj) (values : dict obj) : M W obj :=
  let* self := alloc_n c values in
  fun w =>
  match (let* m := on_instance c self "post_new" in
         let* r := call_attr m (c_post_new c self) [] ret in
         let* t := truth R r in ret (if t then r else self)) w with
  | (Ok s, w1) => if is_none R parsing then (Ok s, w1)
                  else (Raise (mkexc TypeError "positional argument can be interpreted both as trivial argument and as unary argument"), w1)
  | (Raise e, w1) =>
      if negb (is_Exception e) then (Raise e, w1) else
      (let* t := truth R parsing in if t then ret parsing else raise e) w1
  end.

(** records/record.py:207-231 *)
Definition build_n (c : cls) (parsing : obj) (kw : dict obj) : M W obj :=
  if negb (forallb (fun k => dmem k (c_fields c)) (keys kw))
  then raise (mkexc TypeError "arguments invalid for type")
  else
    let* values := fill_kwargs R c parsing kw in
    match values with
    | None => ret parsing
    | Some values =>
        if negb (forallb (fun k => dmem k kw) (required_keys (c_fields c)))
        then raise (mkexc TypeError "missing required arguments")
        else
          let* defaults := (fun w => fill_defaults c (set_order R w (filter (fun k => negb (dmem k kw)) (optional_keys (c_fields c)))) w) in
          finish_n c parsing (values ++ defaults)
    end.

(** from_instance without a Select -- records/record.py:451-485, records/select.py:216-253 *)
Definition from_instance_n (mk : dict obj -> M W obj) (c : cls) (v : obj) : M W obj :=
  let* frozen := class_is_frozen c in
  if frozen && isinstance P v (c_ty c) then ret v else
  let* d := call_attr (on_class c "_to_dict") (to_dict_of R c v no_args sel_empty) [v] (items_of K) in
  mk d.

(** parse -- records/record.py:568-594.  [cls._parsers] holds bound factories, found when the
    class was made. *)
Definition run_parser_n (mk : dict obj -> M W obj) (c : cls) (p : parser) (v : obj) : M W obj :=
  match p with
  | PFromInstance => from_instance_n mk c v
  | _ => run_parser R mk c p v
  end.
Fixpoint attempt_parsers_n (mk : dict obj -> M W obj) (c : cls) (ps : list parser) (v : obj) : M W (list obj) :=
  match ps with
  | [] => ret []
  | p :: r => fun w =>
      match run_parser_n mk c p v w with
      | (Ok x, w1) => (let* xs := attempt_parsers_n mk c r v in ret (x :: xs)) w1
      | (Raise e, w1) => if is_Exception e then attempt_parsers_n mk c r v w1 else (Raise e, w1)
      end
  end.
Definition parse_n (mk : dict obj -> M W obj) (c : cls) (v : obj) : M W obj :=
  let* xs := attempt_parsers_n mk c (c_parsers c) v in
  match xs with
  | [] => raise (mkexc ParseFailure "cannot parse")
  | [x] => ret x
  | _ => raise (mkexc TypeError "multiple unary constructors succeeded")
  end.

(** RecordBase.__new__ -- records/record.py:168-252 *)
Fixpoint new_n (fuel : nat) (c : cls) (arg : option obj) (kw : dict obj) {struct fuel} : M W obj :=
  match fuel with
  | O => raise (mkexc RecursionError "maximum recursion depth exceeded")
  | S n =>
      match arg with
      | None => build_n c (o_none P) kw
      | Some a =>
          let one := Nat.eqb (List.length (required_keys (c_fields c))) 1 in
          let* parsing := (match kw with
                           | [] => if c_unary c
                                   then catch_parse_failure
                                          (call_attr (on_class c "parse") (parse_n (call_cls R (new_n n c) c None) c a) [a] ret)
                                          (fun e => if one then ret (o_none P) else raise e)
                                   else ret (o_none P)
                           | _ => ret (o_none P)
                           end) in
          if negb one then
            if is_none R parsing then raise (mkexc TypeError "class accepts no positional arguments") else ret parsing
          else
            match required_keys (c_fields c) with
            | k :: _ => if dmem k kw then raise (mkexc TypeError ("duplicate " ++ k)%string)
                        else build_n c parsing (kw ++ [(k, a)])
            | [] => raise (mkexc RuntimeError "StopIteration")
            end
      end
  end.
Definition construct_n (fuel : nat) (c : cls) (pos : option obj) (kw : dict obj) : M W obj := call_cls R (new_n fuel c) c pos kw.

(** ** Copying *)

(** RecordBase.__copy__ -- records/record.py:644-647 *)
Definition copy_n (fuel : nat) (x : obj) : M W obj :=
  with_class R ctx x (fun c =>
  let* m := on_instance c x "is_frozen" in
  let* frozen := call_attr m (ret (frozen_flag c)) [] (truth R) in
  if frozen then ret x else
  call_attr (on_class c "from_instance") (from_instance_n (construct_n fuel c None) c x) [x] ret).

(** RecordBase.__deepcopy__ -- records/record.py:649-653 *)
Definition deepcopy_n (fuel : nat) (x : obj) : M W obj :=
  with_class R ctx x (fun c =>
  let* d := to_dict_n x no_args in
  let* vs := deep_copy R (dvalues d) in
  let d' := combine (keys d) vs in
  let* m := on_instance c x "from_mapping" in
  call_attr m (construct_n fuel c None d') [dict_obj K d'] ret).

End Attrs.
