(** Mutable.v -- filling of containers that can change, also while they are being filled
    (records/fillers/builtin_fillers/typing_fillers.py:179-225, 232-246, 260-292, 305-306,
    320-350).

    Filler.v and Containers.v take what a container holds to be the same at all times.  Here
    that depends on the state, coercers and validators may change it, and iterators look at
    the container as it is when they are asked.  Only the fillers of containers are here; what
    is done with a value before its elements are filled, and with what is no container, is an
    arbitrary function. *)
From Verif Require Import Base.

(** a computation that may not end: no result is ever given then *)
Definition MO (W A : Type) := W -> option (outcome A * W).
Definition mo_bind {W A B} (m : MO W A) (k : A -> MO W B) : MO W B := fun w =>
  match m w with
  | None => None
  | Some (Ok a, w') => k a w'
  | Some (Raise e, w') => Some (Raise e, w')
  end.
Definition ends {W A} (m : M W A) : MO W A := fun w => Some (m w).

(** containers in a state *)
Record Heap (obj W : Type) := {
  (** what a list, deque or tuple holds *)
  seq : W -> obj -> option (list obj);
  (** the items of a dict *)
  items : W -> obj -> option (list (obj * obj));
  (** [x is y] *)
  same : obj -> obj -> bool;
  (** [next(it)], where [it] is [iter(v)] made in state [w0] and asked [i] times before:
      [None] is StopIteration.  A list just looks at place [i]; deques raise RuntimeError if
      they were changed after [w0]. *)
  next : obj -> W -> nat -> W -> outcome (option obj);
  (** likewise for [v.items()]; dicts raise RuntimeError if their length is not that at [w0] *)
  next_item : obj -> W -> nat -> W -> outcome (option (obj * obj));
  (** [v[:n]] works *)
  slices : obj -> bool;
  (** [type(initial)(elements)], for Deque fields with the maxlen *)
  make_seq : obj -> list obj -> M W obj;
  (** [type(initial)(tuples)], for DefaultDict fields with the default_factory *)
  make_map : obj -> list (obj * obj) -> M W obj
}.
Arguments seq {obj W} h. Arguments items {obj W} h. Arguments same {obj W} h. Arguments next {obj W} h.
Arguments next_item {obj W} h. Arguments slices {obj W} h. Arguments make_seq {obj W} h. Arguments make_map {obj W} h.

Section Mutable.
Context {obj W : Type} (H : Heap obj W).

(** a generator of filled elements, run by the constructor *)
Fixpoint fill_each (elt : obj -> MO W obj) (l : list obj) : MO W (list obj) :=
  match l with
  | [] => fun w => Some (Ok [], w)
  | x :: r => mo_bind (elt x) (fun y => mo_bind (fill_each elt r) (fun ys w => Some (Ok (y :: ys), w)))
  end.

(** the same over an iterator of [v] made in state [w0] and asked [i] times *)
Fixpoint fill_live (n : nat) (elt : obj -> MO W obj) (v : obj) (w0 : W) (i : nat) : MO W (list obj) :=
  match n with
  | 0 => fun _ => None
  | S n => fun w =>
      match next H v w0 i w with
      | Raise e => Some (Raise e, w)
      | Ok None => Some (Ok [], w)
      | Ok (Some x) => mo_bind (elt x) (fun y => mo_bind (fill_live n elt v w0 (S i)) (fun ys w => Some (Ok (y :: ys), w))) w
      end
  end.

(** what follows the first element that changed: _split_at (232-246) and reconstruct (260-267,
    305-306), called in state [w]; [i] elements filled to themselves, then one to [y].  Slices
    copy what [v] holds then.  Without slices [v] is run through again; the first [i]
    elements come before any filling. *)
Definition rebuilt (n : nat) (elt : obj -> MO W obj) (v : obj) (i : nat) (y : obj) : MO W obj := fun w =>
  match seq H w v with
  | None => Some (Raise (mkexc TypeError "object is not iterable"), w)
  | Some l =>
      mo_bind (if slices H v then fill_each elt (skipn (S i) l) else fill_live n elt v w (S i))
              (fun r => ends (make_seq H v (firstn i l ++ y :: r))) w
  end.

(** inner_validator of Tuple[T, ...] (179-193) and of GenericIterableFiller (277-292), with
    [iter(v)] made in state [w0] and asked [i] times *)
Fixpoint pass (n : nat) (elt : obj -> MO W obj) (v : obj) (w0 : W) (i : nat) : MO W obj :=
  match n with
  | 0 => fun _ => None
  | S n => fun w =>
      match next H v w0 i w with
      | Raise e => Some (Raise e, w)
      | Ok None => Some (Ok v, w)
      | Ok (Some x) =>
          mo_bind (elt x) (fun y => if same H y x then pass n elt v w0 (S i) else rebuilt (S n) elt v i y) w
      end
  end.

(** the tuples of GenericMappingFiller (340-343) *)
Fixpoint fill_items (n : nat) (fk fv : obj -> MO W obj) (v : obj) (w0 : W) (i : nat) : MO W (list (obj * obj)) :=
  match n with
  | 0 => fun _ => None
  | S n => fun w =>
      match next_item H v w0 i w with
      | Raise e => Some (Raise e, w)
      | Ok None => Some (Ok [], w)
      | Ok (Some (k, x)) =>
          mo_bind (fk k) (fun k' => mo_bind (fv x) (fun x' =>
          mo_bind (fill_items n fk fv v w0 (S i)) (fun r w => Some (Ok ((k', x') :: r), w)))) w
      end
  end.

(** the validator of GenericMappingFiller (336-350); [zip] ends with the shorter one *)
Definition pass_map (n : nat) (fk fv : obj -> MO W obj) (v : obj) : MO W obj := fun w =>
  mo_bind (fill_items n fk fv v w 0) (fun tuples w' =>
    match items H w' v with
    | None => Some (Raise (mkexc AttributeError "items"), w')
    | Some l =>
        if forallb (fun p => same H (fst (fst p)) (fst (snd p)) && same H (snd (fst p)) (snd (snd p))) (combine l tuples)
        then Some (Ok v, w') else ends (make_map H v tuples) w'
    end) w.

(** the elements of a tuple of known length, each with its own filler (212-225).  Tuples do
    not change, so the elements are given. *)
Fixpoint fill_zip (es : list (obj -> MO W obj)) (l : list obj) : MO W (list obj) :=
  match es, l with
  | e :: es, x :: r => mo_bind (e x) (fun y => mo_bind (fill_zip es r) (fun ys w => Some (Ok (y :: ys), w)))
  | _, _ => fun w => Some (Ok [], w)
  end.

(** the validators of Tuple[T1, ..., Tn] (198-225) *)
Definition pass_tuple (es : list (obj -> MO W obj)) (v : obj) : MO W obj := fun w =>
  match seq H w v with
  | None => Some (Raise (mkexc TypeError "object is not iterable"), w)
  | Some l =>
      if negb (Nat.eqb (List.length l) (List.length es)) then Some (Raise (mkexc ValueError "must be a tuple of another length"), w)
      else mo_bind (fill_zip es l) (fun l' =>
             if forallb (fun p => same H (fst p) (snd p)) (combine l l') then fun w => Some (Ok v, w)
             else ends (make_seq H v l')) w
  end.

(** the fillers; [f] is what is done before the elements are filled (checks, coercers and
    validators of the container itself) *)
Inductive filling :=
| FLeaf (f : obj -> M W obj)
| FSeq (f : obj -> M W obj) (e : filling)
| FTuple (f : obj -> M W obj) (es : list filling)
| FMap (f : obj -> M W obj) (k v : filling).

(** filling a value; [n] bounds how often iterators are asked *)
Fixpoint run (n : nat) (F : filling) (x : obj) : MO W obj :=
  match F with
  | FLeaf f => ends (f x)
  | FSeq f e => mo_bind (ends (f x)) (fun v w => pass n (run n e) v w 0 w)
  | FTuple f es => mo_bind (ends (f x)) (pass_tuple (map (fun e => run n e) es))
  | FMap f k v => mo_bind (ends (f x)) (pass_map n (run n k) (run n v))
  end.
End Mutable.
Arguments FLeaf {obj W}. Arguments FSeq {obj W}. Arguments FTuple {obj W}. Arguments FMap {obj W}.
Arguments filling : clear implicits.
