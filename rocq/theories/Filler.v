(** Filler.v -- model of records/fillers: how a type annotation becomes a filler
    and how a filler turns an argument into a stored value. *)
From Verif Require Import Base Py.

(** TypeCheckStyle -- records/fillers/filler.py:44-58 *)
Inductive style := SDefault | SHollow | SCheck | SStrict.

(** TypePassKind -- filler.py:61-68.  [tpk_rank] is the IntEnum value. *)
Inductive tpk := PStrict | PNoCoerce | PCoerce | PHollow.
Definition tpk_rank (k : tpk) : nat :=
  match k with PStrict => 0 | PNoCoerce => 1 | PCoerce => 2 | PHollow => 3 end.

(** What [type_check] returns -- filler.py:143-154 (TypeMatch), std_fillers.py:244-247,
    331-355, typing_fillers.py:99-102.  [TCFalse] is the [False] that the None,
    Ellipsis, callable and Literal fillers return where the base class documents None. *)
Inductive tcheck := TCExact | TCInexact | TCNone | TCFalse.

Definition style_eqb (a b : style) : bool :=
  match a, b with
  | SDefault, SDefault | SHollow, SHollow | SCheck, SCheck | SStrict, SStrict => true
  | _, _ => false
  end.

Section Filler.
Context {obj ty W : Type} (P : Py obj ty W).

(** A callback: what a coercion or validation token yields -- coercers.py:24-30, validators.py:19-27 *)
Definition callback := obj -> M W obj.

(** [AnnotatedFiller.origin] as tokens see it -- filler.py:172 *)
Inductive origin := OTy (t : ty) | OCallable | OLiteral.

(** Coercion tokens -- coercers.py:7-137, std_fillers.py:293-297.
    [CGlobal g]: a GlobalCoercionToken, [g origin] is what calling it yields (or
    raises, e.g. LiteralEval and Loose on an unsuitable origin).  Simplification:
    calling the token at class creation has no side effect. *)
Inductive ctoken :=
| CGlobal (g : origin -> outcome callback)
| CFromInteger
| CCompose (cs : list ctoken)
| CBad. (* a CoercionToken that is not callable; a non-token inside ComposeCoercer *)

(** Validation tokens -- validators.py:8-27 *)
Inductive vtoken :=
| VGlobal (g : origin -> outcome callback)
| VBad.

(** The arguments of [Annotated], after [_as_instance] -- util.py:6-20, filler.py:226-238.
    [TOther] is anything the fillers ignore (tags, strings, ...). *)
Inductive token :=
| TStyle (s : style)
| TCoerce (c : ctoken)
| TValid (v : vtoken)
| TOther.

(** Type annotations, as the checkers of get_filler.py:41-70 classify them.
    [HIter], [HMap], [HGenN] carry the class that get_origin yields for them
    (list, dict, Iterable, ...; genric_origin_map, typing_fillers.py:391-411); [HBare t] is an unparameterised generic
    (typing_fillers.py:443-444), [HOther] whatever is not a type. *)
Inductive hint :=
| HTy (t : ty)
| HNone
| HCallable
| HAny
| HNewType (h : hint)
| HUnion (hs : list hint)
| HLiteral (lid : nat) (vals : list obj)
| HType (base : ty)
| HTupleN (hs : list hint)
| HTupleV (h : hint)
| HIter (rk : rebuild_kind) (t : ty) (h : hint)
| HMap (rk : rebuild_kind) (t : ty) (hk hv : hint)
| HGenN (t : ty) (hs : list hint)
| HBare (t : ty)
| HOther
| HAnn (h : hint) (toks : list token).

(** The subclasses of AnnotatedFiller: SimpleFiller, BoolFiller, NoneFiller,
    EllipsisFiller, CallableFiller (std_fillers.py:239-355) and LiteralFiller
    (typing_fillers.py:89-113) *)
Inductive akind :=
| KSimple (t : ty)
| KBool
| KNone
| KEllipsis
| KCallable
| KLiteral (lid : nat) (vals : list obj).

(** The attributes of AnnotatedFiller -- filler.py:162-175; [a_bound] is [owner is not None] *)
Record afiller := AF {
  a_kind : akind;
  a_args : list token;
  a_style : style;
  a_coercers : list callback;
  a_validators : list callback;
  a_bound : bool
}.

(** The Filler classes -- filler.py, get_filler.py:7-28, typing_fillers.py.
    The WrapperFiller classes hold an inner SimpleFiller (typing_fillers.py:121-123). *)
Inductive filler :=
| FAnn (a : afiller)
| FDumb (bound : bool)
| FUnion (args applied : list token) (subs : list filler) (bound : bool)
| FType (bound : bool) (a : afiller) (base : ty)
| FTupleN (bound : bool) (a : afiller) (subs : list filler)
| FTupleV (bound : bool) (a : afiller) (sub : filler)
| FIter (rk : rebuild_kind) (bound : bool) (a : afiller) (elt : filler)
| FMap (rk : rebuild_kind) (bound : bool) (a : afiller) (fk fv : filler)
| FGenN (bound : bool) (a : afiller) (subs : list filler).

(** ** Type checking *)

Definition ty_mem (t : ty) (l : list ty) : bool := existsb (ty_eqb P t) l.

(** the keys of [possible_values] at the moment -- typing_fillers.py:94-97, 111 *)
Definition lit_types (lid : nat) (vals : list obj) (w : W) : list ty :=
  map (type_of P) vals ++ lit_grown P lid w.

(** [type_check] of each class: SimpleFiller/BoolFiller std_fillers.py:244-247, NoneFiller
    336-337, EllipsisFiller 345-346, CallableFiller 354-355, LiteralFiller typing_fillers.py:99-102 *)
Definition simple_check (t : ty) (v : obj) : tcheck :=
  if ty_eqb P (type_of P v) t then TCExact
  else if isinstance P v t then TCInexact else TCNone.

Definition type_check (k : akind) (v : obj) (w : W) : tcheck :=
  match k with
  | KSimple t => simple_check t v
  | KBool => simple_check (t_bool P) v
  | KNone => if py_is P v (o_none P) then TCExact else TCFalse
  | KEllipsis => if py_is P v (o_ellipsis P) then TCExact else TCFalse
  | KCallable => if callable P v then TCExact else TCFalse
  | KLiteral lid vals =>
      if ty_mem (type_of P v) (lit_types lid vals w) then TCExact
      else if existsb (isinstance P v) (lit_types lid vals w) then TCInexact else TCFalse
  end.

(** the test made after a coercer returned: [tc is None or (tc == inexact and style != check)]
    raises -- filler.py:196-198 *)
Definition coerced_ok (s : style) (tc : tcheck) : bool :=
  match tc with
  | TCNone => false
  | TCInexact => style_eqb s SCheck
  | TCExact | TCFalse => true
  end.

(** ** AnnotatedFiller.fill -- filler.py:177-210 *)

(** the coercion loop, filler.py:192-203: [arg] is rebound by every coercer that
    returns, even if its result then fails the type check *)
Fixpoint run_coercers (k : akind) (s : style) (cs : list callback) (x : obj) : M W obj :=
  match cs with
  | [] => ret x
  | c :: r => fun w =>
      let last := match r with [] => true | _ => false end in
      match c x w with
      | (Raise e, w1) =>
          if is_Exception e && negb last then run_coercers k s r x w1 else (Raise e, w1)
      | (Ok y, w1) =>
          if coerced_ok s (type_check k y w1) then (Ok y, w1)
          else if last then (Raise (mkexc TypeError "coercer returned value of wrong type"), w1)
          else run_coercers k s r y w1
      end
  end.

(** type checking and coercion, filler.py:178-204 *)
Definition type_phase (k : akind) (s : style) (cs : list callback) (x : obj) : M W (obj * tpk) :=
  fun w =>
    match s with
    | SDefault => (Raise (mkexc PlainException ""), w)
    | SHollow => (Ok (x, PHollow), w)
    | SCheck | SStrict =>
        let coerce :=
          match cs with
          | [] => raise (mkexc TypeError "failed type checking")
          | _ => let* y := run_coercers k s cs x in ret (y, PCoerce)
          end in
        match type_check k x w with
        | TCExact => (Ok (x, PStrict), w)
        | TCInexact => if style_eqb s SCheck then (Ok (x, PNoCoerce), w) else coerce w
        | TCNone | TCFalse => coerce w
        end
    end.

(** the validation loop, filler.py:206-208 *)
Fixpoint run_validators (vs : list callback) (x : obj) : M W obj :=
  match vs with
  | [] => ret x
  | v :: r => let* y := v x in run_validators r y
  end.

Definition afill (a : afiller) (x : obj) : M W (obj * tpk) :=
  let* p := type_phase (a_kind a) (a_style a) (a_coercers a) x in
  let* y := run_validators (a_validators a) (fst p) in
  ret (y, snd p).

(** AnnotatedFiller.is_hollow -- filler.py:271-272 *)
Definition ahollow (a : afiller) : bool := style_eqb (a_style a) SHollow.

(** is_hollow -- filler.py:271-272, get_filler.py:27-28, typing_fillers.py:80-81, 132-133 *)
Fixpoint is_hollow (f : filler) : bool :=
  match f with
  | FAnn a => ahollow a
  | FDumb _ => true
  | FUnion _ _ subs _ => forallb is_hollow subs
  | FType _ a _ | FTupleN _ a _ | FTupleV _ a _ | FIter _ _ a _ | FMap _ _ a _ _ | FGenN _ a _ => ahollow a
  end.

(** ** UnionFiller.fill -- typing_fillers.py:37-70 *)

(** [success.type_pass_kind < best_key]; [None] is [float('inf')] *)
Definition rank_lt (k : tpk) (best : option tpk) : bool :=
  match best with None => true | Some b => Nat.ltb (tpk_rank k) (tpk_rank b) end.
Definition rank_eq (k : tpk) (best : option tpk) : bool :=
  match best with None => false | Some b => Nat.eqb (tpk_rank k) (tpk_rank b) end.

(** the loop, typing_fillers.py:53-65 *)
Fixpoint union_loop (fs : list (obj -> M W (obj * tpk))) (x : obj)
    (best : list obj) (key : option tpk) : M W (list obj * option tpk) :=
  match fs with
  | [] => ret (best, key)
  | f :: r => fun w =>
      match f x w with
      | (Raise e, w1) =>
          if is_Exception e then
            match best, r with
            | [], [] => (Raise e, w1)
            | _, _ => union_loop r x best key w1
            end
          else (Raise e, w1)
      | (Ok (v, k), w1) =>
          if rank_lt k key then union_loop r x [v] (Some k) w1
          else if rank_eq k key then union_loop r x (best ++ [v]) key w1
          else union_loop r x best key w1
      end
  end.

(** the ambiguity test and the result, typing_fillers.py:67-70.  The second case
    ([best_results[0]] of an empty list) needs a Union without members. *)
Definition union_finish (best : list obj) (key : option tpk) : M W (obj * tpk) :=
  match best, key with
  | b :: r, Some k =>
      if existsb (fun y => negb (py_is P y b)) r
      then raise (mkexc ValueError "multiple sub-fillers matched")
      else ret (b, k)
  | _, _ => raise (mkexc LookupError "list index out of range")
  end.

(** Filler.fill -- filler.py:177-210, get_filler.py:16-17, typing_fillers.py:37-70, 125-126 *)
Fixpoint fill (f : filler) : obj -> M W (obj * tpk) :=
  match f with
  | FAnn a => afill a
  | FDumb _ => fun x => ret (x, PHollow)
  | FUnion _ _ subs _ => fun x =>
      if forallb is_hollow subs then ret (x, PHollow)
      else let* bk := union_loop (map fill subs) x [] None in union_finish (fst bk) (snd bk)
  | FType _ a _ | FTupleN _ a _ | FTupleV _ a _ | FIter _ _ a _ | FMap _ _ a _ _ | FGenN _ a _ => afill a
  end.

(** Filler.__call__ -- filler.py:133-140, AnnotatedFiller.__call__ 221-224 *)
Definition call (f : filler) (x : obj) : M W obj :=
  let plain := let* p := fill f x in ret (fst p) in
  match f with
  | FAnn a => match a_style a, a_validators a with SHollow, [] => ret x | _, _ => plain end
  | _ => plain
  end.

(** ** The validators that container fillers add to themselves *)

(** LiteralFiller's validator, typing_fillers.py:107-113: indexing the defaultdict
    with the class of the value adds that class as a key, and [in] hashes the value *)
Definition lit_mem (vals : list obj) (v : obj) : bool :=
  existsb (fun l => ty_eqb P (type_of P v) (type_of P l) && lit_eq P v l) vals.

Definition literal_validator (lid : nat) (vals : list obj) : callback :=
  fun v w =>
    let w1 := if ty_mem (type_of P v) (lit_types lid vals w) then w
              else lit_grow P lid (type_of P v) w in
    if lit_mem vals v then (Ok v, w1)
    else (Raise (match hash_error P v with Some e => e | None => mkexc ValueError "" end), w1).

(** TypeFiller's validator, typing_fillers.py:151-156 *)
Definition type_validator (base : ty) : callback :=
  fun v w => match issubclass P v base with
             | Raise e => (Raise e, w)
             | Ok true => (Ok v, w)
             | Ok false => (Raise (mkexc ValueError "must be a subclass"), w)
             end.

(** GenericIterableFiller's and Tuple[T, ...]'s validator, typing_fillers.py:179-193, 277-292.
    [fill_rest done l] is the loop over the remaining elements [l], [done] being
    the elements before them that filled to themselves. *)
Fixpoint fill_rest (rk : rebuild_kind) (elt : callback) (v : obj) (done l : list obj) : M W obj :=
  match l with
  | [] => ret v
  | e :: r =>
      let* e' := elt e in
      if py_is P e' e then fill_rest rk elt v (done ++ [e]) r
      else let* post := mapM elt r in rebuild P rk v (done ++ e' :: post)
  end.

Definition not_iterable : exc := mkexc TypeError "object is not iterable".

Definition iter_validator (rk : rebuild_kind) (elt : callback) : callback :=
  fun v => match elems P v with
           | None => raise not_iterable
           | Some l => fill_rest rk elt v [] l
           end.

(** the length test of Tuple[T1, ..., Tn], typing_fillers.py:195-200 *)
Definition len_validator (n : nat) : callback :=
  fun v => match elems P v with
           | None => raise not_iterable
           | Some l => if Nat.eqb (List.length l) n then ret v
                       else raise (mkexc ValueError "must be an n-tuple")
           end.

(** the element-wise filling of Tuple[T1, ..., Tn], typing_fillers.py:208-225; [zip] stops
    at the shorter of the two *)
Fixpoint fill_zip (fs : list callback) (l : list obj) : M W (list obj) :=
  match fs, l with
  | f :: fr, e :: r => let* e' := f e in let* post := fill_zip fr r in ret (e' :: post)
  | _, _ => ret []
  end.

Fixpoint tuple_rest (fs : list callback) (v : obj) (done l : list obj) : M W obj :=
  match fs, l with
  | f :: fr, e :: r =>
      let* e' := f e in
      if py_is P e' e then tuple_rest fr v (done ++ [e]) r
      else let* post := fill_zip fr r in rebuild P RkPlain v (done ++ e' :: post)
  | _, _ => ret v
  end.

Definition tuple_validator (fs : list callback) : callback :=
  fun v => match elems P v with
           | None => raise not_iterable
           | Some l => tuple_rest fs v [] l
           end.

(** GenericMappingFiller's validator, typing_fillers.py:336-350 *)
Definition fill_pair (fk fv : callback) (kv : obj * obj) : M W (obj * obj) :=
  let* k := fk (fst kv) in let* v := fv (snd kv) in ret (k, v).

Definition pair_is (a b : obj * obj) : bool :=
  py_is P (fst a) (fst b) && py_is P (snd a) (snd b).

Fixpoint all_same (l l' : list (obj * obj)) : bool :=
  match l, l' with
  | a :: r, b :: r' => pair_is a b && all_same r r'
  | _, _ => true
  end.

Definition map_validator (rk : rebuild_kind) (fk fv : callback) : callback :=
  fun v => match items P v with
           | None => raise (mkexc AttributeError "items")
           | Some l =>
               let* l' := mapM (fill_pair fk fv) l in
               if all_same l l' then ret v else rebuild_map P rk v l'
           end.

(** ** Building fillers *)

Definition origin_of (k : akind) : origin :=
  match k with
  | KSimple t => OTy t
  | KBool => OTy (t_bool P)
  | KNone => OTy (t_none P)
  | KEllipsis => OTy (t_ellipsis P)
  | KCallable => OCallable
  | KLiteral _ _ => OLiteral
  end.

(** BoolFiller._bool_from_int -- std_fillers.py:305-311 *)
Definition bool_from_int : callback :=
  fun v =>
    let* z := eq_int P v 0 in
    if z : bool then ret (o_false P)
    else let* o := eq_int P v 1 in
         if o : bool then ret (o_true P) else raise (mkexc TypeError "").

(** [for f in functors: v = f(v)] over the reversed list -- coercers.py:129-137 *)
Fixpoint run_seq (fs : list callback) (v : obj) : M W obj :=
  match fs with
  | [] => ret v
  | f :: r => let* v' := f v in run_seq r v'
  end.

(** get_coercer -- filler.py:249-258, BoolFiller's std_fillers.py:313-316; the token of
    ComposeCoercer asks the filler for each inner token, coercers.py:129-137 *)
Fixpoint get_coercer (k : akind) (c : ctoken) : outcome callback :=
  match c with
  | CGlobal g => g (origin_of k)
  | CFromInteger =>
      match k with KBool => Ok bool_from_int | _ => Raise (mkexc TypeError "FromInteger") end
  | CCompose cs =>
      do fs <- mapO (get_coercer k) cs; Ok (run_seq (rev fs))
  | CBad => Raise (mkexc TypeError "")
  end.

(** get_validator -- filler.py:260-269 *)
Definition get_validator (k : akind) (v : vtoken) : outcome callback :=
  match v with VGlobal g => g (origin_of k) | VBad => Raise (mkexc TypeError "") end.

Definition sealed : exc := mkexc RuntimeError "cannot apply tokens to filler after binding".
Definition already_bound : exc := mkexc RuntimeError "filler is already bound".

(** AnnotatedFiller.apply -- filler.py:226-238 *)
Definition aapply (a : afiller) (t : token) : outcome afiller :=
  if a_bound a then Raise sealed else
  match t with
  | TStyle s => Ok (AF (a_kind a) (a_args a) s (a_coercers a) (a_validators a) (a_bound a))
  | TCoerce c => do f <- get_coercer (a_kind a) c;
      Ok (AF (a_kind a) (a_args a) (a_style a) (a_coercers a ++ [f]) (a_validators a) (a_bound a))
  | TValid v => do f <- get_validator (a_kind a) v;
      Ok (AF (a_kind a) (a_args a) (a_style a) (a_coercers a) (a_validators a ++ [f]) (a_bound a))
  | TOther => Ok a
  end.

Fixpoint aapplys (a : afiller) (ts : list token) : outcome afiller :=
  match ts with [] => Ok a | t :: r => do a1 <- aapply a t; aapplys a1 r end.

Definition add_validator (a : afiller) (v : callback) : afiller :=
  AF (a_kind a) (a_args a) (a_style a) (a_coercers a) (a_validators a ++ [v]) (a_bound a).

(** the origin whose abstractness SimpleFiller.bind tests; other kinds are not SimpleFillers *)
Definition kind_abstract (k : akind) : bool :=
  match origin_of k with OTy t => isabstract P t | _ => false end.

(** AnnotatedFiller.bind -- filler.py:212-219 -- followed by the subclass's additions:
    SimpleFiller std_fillers.py:249-253, LiteralFiller typing_fillers.py:104-113.
    [dflt] is the owner's default_type_check_style(). *)
Definition abind (dflt : style) (a : afiller) : outcome afiller :=
  do a1 <- aapplys a (a_args a);
  if a_bound a1 then Raise already_bound else
  let s := if style_eqb (a_style a1) SDefault then dflt else a_style a1 in
  if style_eqb s SHollow && negb (match a_coercers a1 with [] => true | _ => false end)
  then Raise (mkexc ValueError "cannot have hollow type checking with coercers") else
  let a2 := AF (a_kind a1) (a_args a1) s (a_coercers a1) (a_validators a1) true in
  match a_kind a2 with
  | KLiteral lid vals =>
      Ok (if ahollow a2 then a2 else add_validator a2 (literal_validator lid vals))
  | k => if style_eqb s SStrict && kind_abstract k
         then Raise (mkexc TypeError "cannot create strict checker for abstract class")
         else Ok a2
  end.

(** Filler.apply -- filler.py:124-131, get_filler.py:24-25, typing_fillers.py:33-35, 135-136 *)
Definition apply (f : filler) (t : token) : outcome filler :=
  match f with
  | FAnn a => do a1 <- aapply a t; Ok (FAnn a1)
  | FDumb _ => Raise (mkexc TypeError "cannot have tokens for origin type")
  | FUnion args applied subs b =>
      if b then Raise sealed else Ok (FUnion args (applied ++ [t]) subs b)
  | FType b a base => do a1 <- aapply a t; Ok (FType b a1 base)
  | FTupleN b a subs => do a1 <- aapply a t; Ok (FTupleN b a1 subs)
  | FTupleV b a sub => do a1 <- aapply a t; Ok (FTupleV b a1 sub)
  | FIter rk b a elt => do a1 <- aapply a t; Ok (FIter rk b a1 elt)
  | FMap rk b a fk fv => do a1 <- aapply a t; Ok (FMap rk b a1 fk fv)
  | FGenN b a subs => do a1 <- aapply a t; Ok (FGenN b a1 subs)
  end.

Fixpoint applys (f : filler) (ts : list token) : outcome filler :=
  match ts with [] => Ok f | t :: r => do f1 <- apply f t; applys f1 r end.

Definition no_sub : exc := mkexc LookupError "filler has no sub-filler".

(** Filler.sub_filler -- filler.py:87-96, typing_fillers.py:83-86, 227-230, 294-297, 352-358.
    Keys are None or the number of a part; Subkeys.v has keys of all kinds. *)
Definition sub_filler (f : filler) (key : option nat) : outcome filler :=
  match key with
  | None => Ok f
  | Some n =>
      match f, n with
      | FUnion _ _ subs _, _ | FTupleN _ _ subs, _ =>
          match nth_error subs n with Some s => Ok s | None => Raise no_sub end
      | FTupleV _ _ s, O | FIter _ _ _ s, O | FMap _ _ _ s _, O | FMap _ _ _ _ s, S O => Ok s
      | _, _ => Raise no_sub
      end
  end.

(** replace the [n]-th element by what [g] makes of it *)
Fixpoint update_nth (n : nat) (g : filler -> outcome filler) (l : list filler) : outcome (list filler) :=
  match l, n with
  | [], _ => Raise no_sub
  | f :: r, O => do f' <- g f; Ok (f' :: r)
  | f :: r, S n' => do r' <- update_nth n' g r; Ok (f :: r')
  end.

(** RecordField._apply_to_filler -- field.py:128-130 -- with sub_filler, filler.py:87-96,
    typing_fillers.py:83-86, 227-230, 294-297, 352-358.  Keys are None or the number
    of a part; Subkeys.v has keys of all kinds. *)
Definition apply_at (key : option nat) (t : token) (f : filler) : outcome filler :=
  match key with
  | None => apply f t
  | Some n =>
      let g := fun sf => apply sf t in
      match f with
      | FUnion args applied subs b => do subs' <- update_nth n g subs; Ok (FUnion args applied subs' b)
      | FTupleN b a subs => do subs' <- update_nth n g subs; Ok (FTupleN b a subs')
      | FTupleV b a sub =>
          match n with O => do s' <- g sub; Ok (FTupleV b a s') | _ => Raise no_sub end
      | FIter rk b a elt =>
          match n with O => do s' <- g elt; Ok (FIter rk b a s') | _ => Raise no_sub end
      | FMap rk b a fk fv =>
          match n with
          | O => do s' <- g fk; Ok (FMap rk b a s' fv)
          | S O => do s' <- g fv; Ok (FMap rk b a fk s')
          | _ => Raise no_sub
          end
      | _ => Raise no_sub
      end
  end.

Fixpoint apply_ops (f : filler) (ops : list (option nat * token)) : outcome filler :=
  match ops with [] => Ok f | (k, t) :: r => do f1 <- apply_at k t f; apply_ops f1 r end.

Definition hollow_container : exc :=
  mkexc TypeError "cannot use non-hollow inner fillers in a hollow filler".

(** Filler.bind -- filler.py:107-115, get_filler.py:19-22, typing_fillers.py:72-78, 128-130,
    147-156, 170-225, 269-292, 329-350, 379-386.  [bind_with dflt pre f] applies the
    tokens [pre] to [f] and then binds it: that is what a Union does to its members
    (typing_fillers.py:74-78), and [pre] is empty for a field's own filler.
    Simplification: GenericFillerN gets its inner fillers when it is created, not
    when it is bound. *)
Fixpoint bind_with (dflt : style) (pre : list token) (f : filler) : outcome filler :=
  match f with
  | FAnn a => do a1 <- aapplys a pre; do a2 <- abind dflt a1; Ok (FAnn a2)
  | FDumb b =>
      match pre with
      | _ :: _ => Raise (mkexc TypeError "cannot have tokens for origin type")
      | [] => if b then Raise already_bound
              else if style_eqb dflt SHollow then Ok (FDumb true)
              else Raise (mkexc TypeError "cannot have type checking for origin type")
      end
  | FUnion args applied subs b =>
      if b then Raise already_bound else
      do subs' <- mapO (bind_with dflt (args ++ (applied ++ pre))) subs;
      Ok (FUnion args (applied ++ pre) subs' true)
  | FType b a base =>
      do a1 <- aapplys a pre;
      if b then Raise already_bound else
      do a2 <- abind dflt a1;
      Ok (FType true (if ahollow a2 then a2 else add_validator a2 (type_validator base)) base)
  | FTupleV b a sub =>
      do a1 <- aapplys a pre;
      if b then Raise already_bound else
      do a2 <- abind dflt a1;
      do sub' <- bind_with dflt [] sub;
      if is_hollow sub' then Ok (FTupleV true a2 sub')
      else if ahollow a2 then Raise hollow_container
      else Ok (FTupleV true (add_validator a2 (iter_validator RkPlain (call sub'))) sub')
  | FTupleN b a subs =>
      do a1 <- aapplys a pre;
      if b then Raise already_bound else
      do a2 <- abind dflt a1;
      let a3 := if ahollow a2 then a2 else add_validator a2 (len_validator (List.length subs)) in
      do subs' <- mapO (bind_with dflt []) subs;
      if forallb is_hollow subs' then Ok (FTupleN true a3 subs')
      else if ahollow a3 then Raise hollow_container
      else Ok (FTupleN true (add_validator a3 (tuple_validator (map call subs'))) subs')
  | FIter rk b a elt =>
      do a1 <- aapplys a pre;
      if b then Raise already_bound else
      do a2 <- abind dflt a1;
      do elt' <- bind_with dflt [] elt;
      if is_hollow elt' then Ok (FIter rk true a2 elt')
      else if ahollow a2 then Raise hollow_container
      else Ok (FIter rk true (add_validator a2 (iter_validator rk (call elt'))) elt')
  | FMap rk b a fk fv =>
      do a1 <- aapplys a pre;
      if b then Raise already_bound else
      do a2 <- abind dflt a1;
      do fk' <- bind_with dflt [] fk;
      do fv' <- bind_with dflt [] fv;
      if is_hollow fk' && is_hollow fv' then Ok (FMap rk true a2 fk' fv')
      else if ahollow a2 then Raise hollow_container
      else Ok (FMap rk true (add_validator a2 (map_validator rk (call fk') (call fv'))) fk' fv')
  | FGenN b a subs =>
      do a1 <- aapplys a pre;
      if b then Raise already_bound else
      do a2 <- abind dflt a1;
      do subs' <- mapO (fun s => do s' <- bind_with dflt [] s;
                                 if is_hollow s' then Ok s'
                                 else Raise (mkexc TypeError "A non-specialized filler cannot have non-hollow inner types")) subs;
      Ok (FGenN true a2 subs')
  end.

Definition bind_filler (dflt : style) (f : filler) : outcome filler := bind_with dflt [] f.

(** AnnotatedFiller.__init__ -- filler.py:162-175 *)
Definition mk_afiller (k : akind) (args : list token) : afiller := AF k args SDefault [] [] false.

(** builtin_filler_map and the supertype search -- std_fillers.py:358-363, get_filler.py:52-66 *)
Definition class_kind (t : ty) : akind :=
  if ty_eqb P t (t_bool P) then KBool
  else if ty_eqb P t (t_none P) then KNone
  else if ty_eqb P t (t_ellipsis P) then KEllipsis
  else KSimple t.

Definition no_annotated_origin : exc := mkexc TypeError "cannot have Annotated type with origin".

Definition dumb (args : list token) : outcome filler :=
  match args with [] => Ok (FDumb false) | _ => Raise no_annotated_origin end.

(** get_filler and get_annotated_filler -- get_filler.py:31-70, with _typing
    (typing_fillers.py:419-444), none_checker and callable_checker (std_fillers.py:368-377).
    [gaf args h] is [get_annotated_filler(h, args)]; nested Annotated types are
    flattened by the typing module itself.  The supertype of a NewType is passed
    on without being split (typing_fillers.py:421-423), so an Annotated supertype
    is not a type.  A container's inner filler is get_annotated_filler of its class
    (typing_fillers.py:121-123), a SimpleFiller. *)
Fixpoint gaf (args : list token) (h : hint) : outcome filler :=
  match h with
  | HAnn h' toks => gaf (toks ++ args) h'
  | HTy t => Ok (FAnn (mk_afiller (class_kind t) args))
  | HNone => Ok (FAnn (mk_afiller KNone args))
  | HCallable => Ok (FAnn (mk_afiller KCallable args))
  | HAny => Ok (FAnn (mk_afiller (KSimple (t_object P)) args))
  | HNewType h' => match h' with HAnn _ _ => dumb args | _ => gaf args h' end
  | HUnion hs => do subs <- mapO (gaf []) hs; Ok (FUnion args [] subs false)
  | HLiteral lid vals => Ok (FAnn (mk_afiller (KLiteral lid vals) args))
  | HType base => Ok (FType false (mk_afiller (KSimple (t_type P)) args) base)
  | HTupleN hs => do subs <- mapO (gaf []) hs;
      Ok (FTupleN false (mk_afiller (KSimple (t_tuple P)) args) subs)
  | HTupleV h' => do sub <- gaf [] h'; Ok (FTupleV false (mk_afiller (KSimple (t_tuple P)) args) sub)
  | HIter rk t h' => do sub <- gaf [] h'; Ok (FIter rk false (mk_afiller (KSimple t) args) sub)
  | HMap rk t hk hv => do fk <- gaf [] hk; do fv <- gaf [] hv;
      Ok (FMap rk false (mk_afiller (KSimple t) args) fk fv)
  | HGenN t hs => do subs <- mapO (gaf []) hs; Ok (FGenN false (mk_afiller (KSimple t) args) subs)
  | HBare t => Ok (FAnn (mk_afiller (class_kind t) args))
  | HOther => dumb args
  end.

Definition get_filler (h : hint) : outcome filler := gaf [] h.

(** How the filler of a field comes to be: RecordField.from_type_hint (field.py:122-123), the
    tokens its owner's pre_bind applies, and bind (record.py:135-138) *)
Definition make_filler (dflt : style) (h : hint) (ops : list (option nat * token)) : outcome filler :=
  do f <- get_filler h; do f1 <- apply_ops f ops; bind_filler dflt f1.

End Filler.

Arguments CGlobal {obj ty W}.
Arguments CFromInteger {obj ty W}.
Arguments CCompose {obj ty W}.
Arguments CBad {obj ty W}.
Arguments VGlobal {obj ty W}.
Arguments VBad {obj ty W}.
Arguments TStyle {obj ty W}.
Arguments TCoerce {obj ty W}.
Arguments TValid {obj ty W}.
Arguments TOther {obj ty W}.
Arguments HTy {obj ty W}.
Arguments HNone {obj ty W}.
Arguments HCallable {obj ty W}.
Arguments HAny {obj ty W}.
Arguments HNewType {obj ty W}.
Arguments HUnion {obj ty W}.
Arguments HLiteral {obj ty W}.
Arguments HType {obj ty W}.
Arguments HTupleN {obj ty W}.
Arguments HTupleV {obj ty W}.
Arguments HIter {obj ty W}.
Arguments HMap {obj ty W}.
Arguments HGenN {obj ty W}.
Arguments HBare {obj ty W}.
Arguments HOther {obj ty W}.
Arguments HAnn {obj ty W}.
Arguments KSimple {obj ty}.
Arguments KBool {obj ty}.
Arguments KNone {obj ty}.
Arguments KEllipsis {obj ty}.
Arguments KCallable {obj ty}.
Arguments KLiteral {obj ty}.
Arguments OTy {ty}.
Arguments OCallable {ty}.
Arguments OLiteral {ty}.
Arguments AF {obj ty W}.
Arguments a_kind {obj ty W}.
Arguments a_args {obj ty W}.
Arguments a_style {obj ty W}.
Arguments a_coercers {obj ty W}.
Arguments a_validators {obj ty W}.
Arguments a_bound {obj ty W}.
Arguments FAnn {obj ty W}.
Arguments FDumb {obj ty W}.
Arguments FUnion {obj ty W}.
Arguments FType {obj ty W}.
Arguments FTupleN {obj ty W}.
Arguments FTupleV {obj ty W}.
Arguments FIter {obj ty W}.
Arguments FMap {obj ty W}.
Arguments FGenN {obj ty W}.
Arguments ahollow {obj ty W}.
Arguments is_hollow {obj ty W}.
