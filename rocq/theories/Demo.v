(** Demo.v -- a small concrete run time, used only to show that the hypotheses of the
    theorems can be met and to refute claims the code does not keep. *)
From Verif Require Import Base Py.

Inductive dty :=
| TNone | TEllipsis | TBool | TInt | TSub | TStr | TFun | TType | TObject
| TList | TTuple | TDict
| TIterable             (* an abstract class *)
| TRec (c : nat).

(** Objects.  [DNil]/[DCons] chains are the contents of containers, not objects of
    their own; a dict is a chain key, value, key, value, ... *)
Inductive dobj :=
| DNone | DEllipsis
| DBool (b : bool)
| DInt (z : Z)
| DSub (z : Z)          (* an instance of a subclass of int *)
| DStr (s : string)
| DFun (n : nat)        (* a function *)
| DRef (t : dty) (n : nat) (* the n-th object on the heap, an instance of record class t *)
| DCls (c : nat)        (* record class c itself *)
| DList (l : dobj) | DTuple (l : dobj) | DDict (l : dobj)
| DNil | DCons (x l : dobj).

Definition dty_eq (x y : dty) : {x = y} + {x <> y}.
Proof. decide equality. apply Nat.eq_dec. Defined.
Definition dobj_eq (x y : dobj) : {x = y} + {x <> y}.
Proof. decide equality; first [apply Bool.bool_dec | apply Z.eq_dec | apply string_dec | apply Nat.eq_dec | apply dty_eq]. Defined.
Definition dis (x y : dobj) : bool := if dobj_eq x y then true else false.
Definition dtyb (x y : dty) : bool := if dty_eq x y then true else false.
Lemma disP : forall x y, reflect (x = y) (dis x y).
Proof. intros. unfold dis. destruct (dobj_eq x y); constructor; assumption. Qed.
Lemma dtyP : forall x y, reflect (x = y) (dtyb x y).
Proof. intros. unfold dtyb. destruct (dty_eq x y); constructor; assumption. Qed.

Definition dtype (x : dobj) : dty :=
  match x with
  | DNone => TNone | DEllipsis => TEllipsis | DBool _ => TBool | DInt _ => TInt | DSub _ => TSub
  | DStr _ => TStr | DFun _ => TFun | DRef t _ => t | DCls _ => TType
  | DList _ => TList | DTuple _ => TTuple | DDict _ => TDict | DNil | DCons _ _ => TObject
  end.

Definition dsub (t u : dty) : bool :=
  dtyb t u || match t, u with
              | _, TObject => true
              | TBool, TInt | TSub, TInt => true
              | (TList | TTuple | TDict), TIterable => true
              | TRec a, TRec b => Nat.eqb a (b + 100)   (* class 100 + n is a subclass of class n *)
              | _, _ => false
              end.

Fixpoint chain (l : list dobj) : dobj := match l with [] => DNil | x :: r => DCons x (chain r) end.
Fixpoint unchain (d : dobj) : list dobj := match d with DCons x r => x :: unchain r | _ => [] end.
Fixpoint pairs (d : dobj) : list (dobj * dobj) :=
  match d with DCons k (DCons v r) => (k, v) :: pairs r | _ => [] end.
Definition unpairs (l : list (dobj * dobj)) : dobj := chain (flat_map (fun kv => [fst kv; snd kv]) l).
Definition dlist (l : list dobj) : dobj := DList (chain l).
Definition dtuple (l : list dobj) : dobj := DTuple (chain l).
Definition ddict (l : list (dobj * dobj)) : dobj := DDict (unpairs l).

Lemma unchain_chain : forall l, unchain (chain l) = l.
Proof. induction l as [|x r IH]; cbn; congruence. Qed.
Lemma pairs_unpairs : forall l, pairs (unpairs l) = l.
Proof. unfold unpairs. induction l as [|[k v] r IH]; cbn; [reflexivity|]. rewrite IH. reflexivity. Qed.

Definition dint (x : dobj) : option Z :=
  match x with DInt z | DSub z => Some z | DBool b => Some (if b then 1%Z else 0%Z) | _ => None end.

Definition dlit_eq (x y : dobj) : bool :=
  match dint x, dint y with Some a, Some b => Z.eqb a b | _, _ => dis x y end.

Fixpoint dhash_error (x : dobj) : option exc :=
  match x with
  | DList _ | DDict _ => Some (mkexc TypeError "unhashable type")
  | DTuple l => dhash_error l
  | DCons x r => match dhash_error x with Some e => Some e | None => dhash_error r end
  | _ => None
  end.

Lemma dhash_error_Exception : forall x e, dhash_error x = Some e -> is_Exception e = true.
Proof.
  induction x; cbn; intros e H; try discriminate; try (injection H as <-; reflexivity); auto.
  destruct (dhash_error x1) as [e1|]; [injection H as <-|]; auto.
Qed.

Section Demo.
Context {W : Type} (getg : W -> list (nat * dty)) (setg : list (nat * dty) -> W -> W).

Definition dgrown (l : nat) (w : W) : list dty := map snd (filter (fun p => Nat.eqb (fst p) l) (getg w)).
Definition dgrow (l : nat) (t : dty) (w : W) : W := setg ((l, t) :: getg w) w.

Definition demo : Py dobj dty W := {|
  py_is := dis; py_isP := disP; ty_eqb := dtyb; ty_eqP := dtyP;
  type_of := dtype;
  isinstance := fun x t => dsub (dtype x) t;
  isabstract := fun t => dtyb t TIterable;
  callable := fun x => match x with DFun _ | DCls _ => true | _ => false end;
  issubclass := fun x t => match x with
                           | DCls c => Ok (dsub (TRec c) t)
                           | _ => Raise (mkexc TypeError "issubclass() arg 1 must be a class")
                           end;
  o_none := DNone; o_ellipsis := DEllipsis; o_true := DBool true; o_false := DBool false;
  t_bool := TBool; t_none := TNone; t_ellipsis := TEllipsis; t_object := TObject; t_tuple := TTuple; t_type := TType;
  lit_eq := dlit_eq;
  hash_error := dhash_error;
  eq_int := fun x z => ret (match dint x with Some y => Z.eqb y z | None => false end);
  elems := fun x => match x with
                    | DList l | DTuple l => Some (unchain l)
                    | DDict l => Some (map fst (pairs l))
                    | _ => None
                    end;
  items := fun x => match x with DDict l => Some (pairs l) | _ => None end;
  rebuild := fun _ x es => match x with
                           | DList _ => ret (dlist es)
                           | DTuple _ => ret (dtuple es)
                           | _ => raise (mkexc TypeError "")
                           end;
  rebuild_map := fun _ x es => match x with DDict _ => ret (ddict es) | _ => raise (mkexc TypeError "") end;
  lit_grown := dgrown; lit_grow := dgrow
|}.
End Demo.

(** a state: the literal tables, and a log for callbacks to write to *)
Definition demo_state := (list (nat * dty) * list dobj)%type.
Definition demo0 : Py dobj dty demo_state :=
  demo (fun w => fst w) (fun l w => (l, snd w)).
Definition st0 : demo_state := ([], []).

(** callbacks: write the argument to the log; only accept positive / non-empty values *)
Definition logging : dobj -> M demo_state dobj := fun x w => (Ok x, (fst w, snd w ++ [x])).
Definition positive : dobj -> M demo_state dobj :=
  fun x w => match dint x with
             | Some z => if Z.ltb 0 z then (Ok x, w) else (Raise (mkexc ValueError "not positive"), w)
             | None => (Raise (mkexc ValueError "not a number"), w)
             end.
