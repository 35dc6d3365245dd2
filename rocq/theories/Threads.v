(** Threads.v -- the same operations when several threads use the records.

    Record.v models hash, ==, to_dict and assignments as if nothing else happened meanwhile.
    Here they are cut into steps between which other threads may run.  One step is one
    access to an attribute or to the _hash slot of a record, or one call of code that is not
    the library's (==, != or hash of a field value, a default factory).  Simplification:
    such a call is one step, whatever it does.  [c100_alone] shows that all steps of an
    operation together do what Record.v says. *)
From Verif Require Import Base Py Select Filler Classes Runtime Record.

Section Threads.
Context {obj ty W : Type} (R : Rt obj ty W).
Notation P := (rt_py R).
Notation cls := (@cls obj ty W).
Context (ctx : ty -> option cls).

(** a computation in steps: it is over, or goes on with its next step *)
Inductive proc (A : Type) :=
| Done (o : outcome A)
| Step (k : W -> proc A * W).
Arguments Done {A}.
Arguments Step {A}.

(** all steps at once *)
Fixpoint run {A} (p : proc A) (w : W) : outcome A * W :=
  match p with
  | Done o => (o, w)
  | Step k => match k w with (p', w') => run p' w' end
  end.

(** one after the other *)
Fixpoint pbind {A B} (p : proc A) (f : A -> proc B) : proc B :=
  match p with
  | Done (Ok a) => f a
  | Done (Raise e) => Done (Raise e)
  | Step k => Step (fun w => match k w with (p', w') => (pbind p' f, w') end)
  end.

(** [m] as a single step *)
Definition atom {A} (m : M W A) : proc A := Step (fun w => match m w with (o, w') => (Done o, w') end).

Fixpoint pmap {A B} (f : A -> proc B) (l : list A) : proc (list B) :=
  match l with
  | [] => Done (Ok [])
  | x :: r => pbind (f x) (fun y => pbind (pmap f r) (fun ys => Done (Ok (y :: ys))))
  end.

(** records/record.py:367-385, like [extract_one] *)
Definition extract_one_t (ok : string -> bool) (x : obj) (a : export_args) (f : xfield) : proc (dict obj) :=
  match export_field a f with
  | Raise e => Done (Raise e)
  | Ok false => Done (Ok [])
  | Ok true =>
      Step (fun w =>
      match getattr R x (x_name f) w with
      | (Ok v, w1) => (pbind (atom (export_value R a f v)) (fun b => Done (Ok (if b : bool then [(x_name f, v)] else []))), w1)
      | (Raise e, w1) =>
          (if is_AttributeError e then
               if negb (ok (x_name f)) then Done (Raise e) else
               if e_defaults a then
                 match x_default f with
                 | NoDefault => Done (Ok [])
                 | DefVal d => Done (Ok [(x_name f, d)])
                 | DefFactory g => pbind (atom g) (fun d => Done (Ok [(x_name f, d)]))
                 end
               else Done (Ok [])
           else Done (Raise e), w1)
      end)
  end.

Fixpoint extract_t (ok : string -> bool) (x : obj) (a : export_args) (fs : list xfield) : proc (dict obj) :=
  match fs with
  | [] => Done (Ok [])
  | f :: r => pbind (extract_one_t ok x a f) (fun h => pbind (extract_t ok x a r) (fun t => Done (Ok (h ++ t))))
  end.

(** the class of [self], like [with_class] *)
Definition with_class_t {A} (x : obj) (k : cls -> proc A) : proc A :=
  Step (fun w => (match class_of R ctx x w with
                  | Some c => k c
                  | None => Done (Raise (mkexc AttributeError "not a record"))
                  end, w)).

(** p.to_dict.select(s)(...) -- records/record.py:596-605, like [to_dict] *)
Definition to_dict_t (x : obj) (a : export_args) (s : sel obj) : proc (dict obj) :=
  with_class_t x (fun c =>
  pbind (extract_t (missing_ok c sel_empty) x a (map snd (extraction c sel_empty))) (fun l =>
  Done (sel_apply s (sort_items (e_sort a) l)))).

(** hash(p) -- records/record.py:411-420, like [record_hash]: the slot is read, perhaps
    written, and read again.  If there is no record any more (which cannot happen, since the
    thread holds a reference to it), the computed hash is returned. *)
Definition read_slot (x : obj) (gone : outcome Z) : proc Z :=
  Step (fun w => (Done (match lookup R w x with
                        | Some j => match i_hash j with
                                    | SHash z => Ok z
                                    | SUnset => Raise (mkexc AttributeError "_hash")
                                    | SNone | SBad => Raise (mkexc TypeError "__hash__ method should return an integer")
                                    end
                        | None => gone
                        end), w)).
Definition write_slot (x : obj) (z : Z) : proc unit :=
  Step (fun w => (Done (Ok tt), match lookup R w x with
                                | Some j => store R x (Inst (i_cls j) (i_dict j) (SHash z)) w
                                | None => w
                                end)).
Definition hash_t (x : obj) : proc Z :=
  Step (fun w => match lookup R w x with
  | None => match v_hash R x w with (o, w') => (Done o, w') end
  | Some i =>
    match ctx (i_cls i) with
    | None => match v_hash R x w with (o, w') => (Done o, w') end
    | Some c =>
      (if negb (c_frozen c) then Done (Raise (mkexc TypeError "unhashable type")) else
       match i_hash i with
       | SUnset => Done (Raise (mkexc AttributeError "_hash"))
       | SNone =>
           pbind (to_dict_t x no_args sel_empty) (fun d =>
           pbind (pmap (fun v => atom (v_hash R v)) (dvalues d)) (fun hs =>
           pbind (write_slot x (tuple_hash R hs)) (fun _ =>
           read_slot x (Ok (tuple_hash R hs)))))
       | SHash z => read_slot x (Ok z)
       | SBad => read_slot x (Raise (mkexc TypeError "__hash__ method should return an integer"))
       end, w)
    end
  end).

(** p == q -- records/record.py:281-289, like [record_eq] *)
Fixpoint fields_equal_t (ks : list string) (x y : obj) : proc bool :=
  match ks with
  | [] => Done (Ok true)
  | k :: r =>
      pbind (atom (getattr R x k)) (fun a =>
      pbind (atom (getattr R y k)) (fun b =>
      pbind (atom (v_ne R a b)) (fun d =>
      if d : bool then Done (Ok false) else fields_equal_t r x y)))
  end.
Definition eq_t (x y : obj) : proc bool :=
  with_class_t x (fun c =>
  if negb (ty_eqb P (type_of P x) (type_of P y)) then Done (Ok false) else
  pbind (if c_frozen c
         then pbind (hash_t x) (fun a => pbind (hash_t y) (fun b => Done (Ok (Z.eqb a b))))
         else Done (Ok true)) (fun same =>
  if negb same then Done (Ok false) else fields_equal_t (keys (c_fields c)) x y)).

End Threads.

Arguments Done {W A}.
Arguments Step {W A}.
