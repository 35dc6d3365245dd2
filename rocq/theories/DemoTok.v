(** DemoTok.v -- the operations of Tokens.v on the objects of Demo.v and on floats, used only
    to show that the hypotheses of the theorems can be met and to refute claims. *)
From Coq Require Import SpecFloat Ascii.
From Verif Require Import Base Py Filler Runtime Demo Tokens.

Definition no_op {W A} : M W A := raise (mkexc TypeError "unsupported operand").

(** the integer an int, a bool or an instance of a subclass of int is *)
Definition dnum (x : dobj) : option Z :=
  match x with DRef (TInt | TBool | TSub) n => Some (Z.of_nat n) | _ => dint x end.
Definition dcmp {W} (c : cmp) (x y : dobj) : M W bool :=
  match dnum x, dnum y with
  | Some a, Some b => ret (match c with CLt => Z.ltb a b | CLe => Z.leb a b | CGt => Z.ltb b a | CGe => Z.leb b a end)
  | _, _ => no_op
  end.
Definition darith {W} (f : Z -> Z -> Z) (x y : dobj) : M W dobj :=
  match dnum x, dnum y with Some a, Some b => ret (DInt (f a b)) | _, _ => no_op end.

(** function 0 gives the number of its positional arguments, function 1 whether the first
    one is positive; calling the class int, str or list makes such an object *)
Definition dcall (f : dobj) (args : list dobj) (kw : dict dobj) : M demo_state dobj :=
  match f, args with
  | DFun 0, _ => ret (DInt (Z.of_nat (List.length args)))
  | DFun 1, x :: _ => ret (DBool (match dint x with Some z => Z.ltb 0 z | None => false end))
  | _, _ => no_op
  end.
Definition dmake (o : @origin dty) (args : list dobj) (kw : dict dobj) : M demo_state dobj :=
  match o, args with
  | OTy TInt, [] => ret (DInt 0)
  | OTy TInt, x :: _ => match dint x with Some z => ret (DInt z) | None => no_op end
  | OTy TList, _ => ret (dlist args)
  | OTy TDict, _ => ret (ddict (map (fun kv => (DStr (fst kv), snd kv)) kw))
  | OTy TStr, _ => ret (DStr "made")
  | _, _ => no_op
  end.
Definition dkeywords (x : dobj) : option (dict dobj) :=
  match x with
  | DDict l => Some (flat_map (fun kv => match fst kv with DStr k => [(k, snd kv)] | _ => [] end) (pairs l))
  | _ => None
  end.
(** strings of the form "'...'" evaluate to the string inside, "7" to 7 *)
Definition dstrip (s : string) : option string :=
  match s with
  | String a r => if negb (Ascii.eqb a "'"%char) then None else if Nat.ltb (String.length r) 1 then None else Some (substring 0 (String.length r - 1) r)
  | _ => None
  end.
Definition dliteral (x : dobj) : M demo_state dobj :=
  match x with
  | DStr s => if String.eqb s "7" then ret (DInt 7) else
              match dstrip s with Some r => ret (DStr r) | None => raise (mkexc ValueError "malformed") end
  | _ => raise (mkexc ValueError "malformed")
  end.

Definition demo_ops : Ops dobj dty demo_state := {|
  op_cmp := dcmp;
  op_eq := fun x y => ret (match dnum x, dnum y with Some a, Some b => Z.eqb a b | _, _ => dis x y end);
  op_truth := fun x => ret (match x with DNone | DBool false => false | DInt 0 | DSub 0 => false | DStr "" => false | DList DNil => false | _ => true end);
  op_sub := darith Z.sub;
  op_mod := fun x y => match dnum y with Some 0%Z => raise (mkexc ZeroDivisionError "") | _ => darith Z.modulo x y end;
  op_add := darith Z.add;
  op_call := dcall;
  op_make := dmake;
  op_method := fun o m => match o with OTy (TRec 0) => if String.eqb m "make" then Ok (DFun 0) else Raise (mkexc AttributeError m) | _ => Raise (mkexc AttributeError m) end;
  op_tuple := fun x => match x with DList l | DTuple l => ret (unchain l) | _ => no_op end;
  op_items := fun x => match dkeywords x with Some d => ret d | None => no_op end;
  op_unpack := fun x => match dkeywords x with Some d => ret d | None => no_op end;
  op_is_str := fun x => match x with DStr _ => true | _ => false end;
  op_eval := fun ns x => match x with DStr s => match dget s ns with Some v => ret v | None => raise (mkexc KeyError s) end | _ => no_op end;
  op_literal_eval := dliteral;
  op_warn := fun l e w => (Ok tt, (fst w, snd w ++ [DStr (exc_msg e)]))
|}.

(** floats only *)
Definition float_cmp (c : cmp) (x y : spec_float) : bool :=
  match c with CLt => SFltb x y | CLe => SFleb x y | CGt => SFltb y x | CGe => SFleb y x end.
Definition float_ops : Ops spec_float unit unit := {|
  op_cmp := fun c x y => ret (float_cmp c x y);
  op_eq := fun x y => ret (SFeqb x y);
  op_truth := fun x => ret (negb (is_zero x));
  op_sub := fun x y => ret (SFsub prec emax x y);
  op_mod := fun x y => if is_zero y then raise (mkexc ZeroDivisionError "float modulo") else ret (float_mod x y);
  op_add := fun x y => ret (SFadd prec emax x y);
  op_call := fun _ _ _ => no_op; op_make := fun _ _ _ => no_op; op_method := fun _ m => Raise (mkexc AttributeError m);
  op_tuple := fun _ => no_op; op_items := fun _ => no_op; op_unpack := fun _ => no_op;
  op_is_str := fun _ => false; op_eval := fun _ _ => no_op; op_literal_eval := fun _ => no_op;
  op_warn := fun _ _ => ret tt
|}.

(** numbers, with the constructor int: floats are truncated *)
Definition truncate (f : spec_float) : Z :=
  match f with
  | S754_finite s m e =>
      let a := match e with Zneg p => (Zpos m / 2 ^ Zpos p)%Z | _ => (Zpos m * 2 ^ e)%Z end in
      if s then (- a)%Z else a
  | _ => 0%Z
  end.
Definition number_ops : Ops number unit unit := {|
  op_cmp := fun _ _ _ => no_op; op_eq := fun _ _ => no_op; op_truth := fun _ => no_op;
  op_sub := fun _ _ => no_op; op_mod := fun _ _ => no_op; op_add := fun _ _ => no_op;
  op_call := fun _ _ _ => no_op;
  op_make := fun _ args _ => match args with
                             | [NRational n 1] => ret (NRational n 1)
                             | [NFloat f] => ret (NRational (truncate f) 1)
                             | _ => no_op
                             end;
  op_method := fun _ m => Raise (mkexc AttributeError m);
  op_tuple := fun _ => no_op; op_items := fun _ => no_op; op_unpack := fun _ => no_op;
  op_is_str := fun _ => false; op_eval := fun _ _ => no_op; op_literal_eval := fun _ => no_op;
  op_warn := fun _ _ => ret tt
|}.
