(** Spec_Mutable.v -- what containers hold in a state, and what may happen to that. *)
From Verif Require Import Base Mutable.

Section Spec.
Context {obj W : Type} (H : Heap obj W).

(** all containers that there were hold what they held *)
Definition unchanged (w w' : W) : Prop :=
  (forall v l, seq H w v = Some l -> seq H w' v = Some l) /\
  (forall v l, items H w v = Some l -> items H w' v = Some l).

(** no container has become longer, or ceased to be one *)
Definition no_longer (w w' : W) : Prop :=
  (forall v l, seq H w v = Some l -> exists l', seq H w' v = Some l' /\ List.length l' <= List.length l) /\
  (forall v l, items H w v = Some l -> exists l', items H w' v = Some l' /\ List.length l' <= List.length l).

(** Python's containers: [is] is identity; iterators yield what is there, in order, if nothing
    changes, and never more than that; a constructor makes a new container of what it is given *)
Record lawful : Prop := {
  la_same : forall x y, same H x y = true <-> x = y;
  la_next : forall v w0 i w l, seq H w0 v = Some l -> seq H w v = Some l -> next H v w0 i w = Ok (nth_error l i);
  la_next_there : forall v w0 i w x, next H v w0 i w = Ok (Some x) -> exists l, seq H w v = Some l /\ i < List.length l;
  la_next_item : forall v w0 i w l, items H w0 v = Some l -> items H w v = Some l -> next_item H v w0 i w = Ok (nth_error l i);
  la_next_item_there : forall v w0 i w x, next_item H v w0 i w = Ok (Some x) -> exists l, items H w v = Some l /\ i < List.length l;
  la_make : forall v l w y w', make_seq H v l w = (Ok y, w') -> l <> [] ->
    seq H w y = None /\ items H w y = None /\ seq H w' y = Some l;
  la_make_keeps : forall v l w, unchanged w (snd (make_seq H v l w));
  la_make_map_new : forall v l w y w', make_map H v l w = (Ok y, w') -> seq H w y = None /\ items H w y = None;
  la_make_map_keeps : forall v l w, unchanged w (snd (make_map H v l w))
}.
(** a mapping made of items holds them; not so if keys are equal (see C128) *)
Definition keeps_items : Prop := forall v l w y w', make_map H v l w = (Ok y, w') -> items H w' y = Some l.

(** coercers and validators keep to [K], and so does everything else that is called before
    elements are filled *)
Fixpoint uses (K : W -> W -> Prop) (F : filling obj W) : Prop :=
  match F with
  | FLeaf f => forall x w, K w (snd (f x w))
  | FSeq f e => (forall x w, K w (snd (f x w))) /\ uses K e
  | FTuple f es => (forall x w, K w (snd (f x w))) /\ (fix all l := match l with [] => True | e :: r => uses K e /\ all r end) es
  | FMap f k v => (forall x w, K w (snd (f x w))) /\ uses K k /\ uses K v
  end.

(** ** Types *)

(** what an annotation promises: of the object, and of what it holds.  It says nothing about
    objects that are no containers but what [Q] says. *)
Inductive shape :=
| ShLeaf (Q : obj -> Prop)
| ShSeq (Q : obj -> Prop) (e : shape)
| ShTuple (Q : obj -> Prop) (es : list shape)
| ShMap (Q : obj -> Prop) (k v : shape).

(** in the state [w], [x] is as promised, to any depth *)
Fixpoint fits (s : shape) (w : W) (x : obj) : Prop :=
  match s with
  | ShLeaf Q => Q x
  | ShSeq Q e => Q x /\ exists l, seq H w x = Some l /\ Forall (fits e w) l
  | ShTuple Q es => Q x /\ exists l, seq H w x = Some l /\
      (fix all2 ss l := match ss, l with
                        | [], [] => True
                        | s :: ss, y :: l => fits s w y /\ all2 ss l
                        | _, _ => False
                        end) es l
  | ShMap Q k v => Q x /\ exists l, items H w x = Some l /\ Forall (fun kv => fits k w (fst kv) /\ fits v w (snd kv)) l
  end.

(** the functions of [F] only return what the shape asks of the object itself, and so do the
    constructors of such objects *)
Fixpoint promises (F : filling obj W) (s : shape) : Prop :=
  match F, s with
  | FLeaf f, ShLeaf Q => forall x w y w', f x w = (Ok y, w') -> Q y
  | FSeq f e, ShSeq Q s =>
      (forall x w y w', f x w = (Ok y, w') -> Q y /\ exists l, seq H w' y = Some l) /\
      (forall v l w y w', Q v -> make_seq H v l w = (Ok y, w') -> Q y) /\ promises e s
  | FTuple f es, ShTuple Q ss =>
      (forall x w y w', f x w = (Ok y, w') -> Q y /\ exists l, seq H w' y = Some l) /\
      (forall v l w y w', Q v -> make_seq H v l w = (Ok y, w') -> Q y) /\
      (fix all2 es ss := match es, ss with
                         | [], [] => True
                         | e :: es, s :: ss => promises e s /\ all2 es ss
                         | _, _ => False
                         end) es ss
  | FMap f k v, ShMap Q sk sv =>
      (forall x w y w', f x w = (Ok y, w') -> Q y /\ exists l, items H w' y = Some l) /\
      (forall v l w y w', Q v -> make_map H v l w = (Ok y, w') -> Q y) /\ promises k sk /\ promises v sv
  | _, _ => False
  end.

(** [y] can be reached from [x] over the contents of containers *)
Inductive reaches (w : W) (x : obj) : obj -> Prop :=
| reaches_itself : reaches w x x
| reaches_element y l z : reaches w x y -> seq H w y = Some l -> In z l -> reaches w x z
| reaches_key y l k v : reaches w x y -> items H w y = Some l -> In (k, v) l -> reaches w x k
| reaches_value y l k v : reaches w x y -> items H w y = Some l -> In (k, v) l -> reaches w x v.

(** all elements are filled by [step], each once and in order *)
Inductive in_turn {A : Type} (step : A -> W -> A -> W -> Prop) : list A -> W -> list A -> W -> Prop :=
| in_turn_done w : in_turn step [] w [] w
| in_turn_next x l w y w1 l' w' : step x w y w1 -> in_turn step l w1 l' w' -> in_turn step (x :: l) w (y :: l') w'.

End Spec.
Arguments ShLeaf {obj}. Arguments ShSeq {obj}. Arguments ShTuple {obj}. Arguments ShMap {obj}.
