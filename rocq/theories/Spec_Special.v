(** Spec_Special.v -- programs that declare record classes one after the other. *)
From Verif Require Import Base Py Select Filler Classes Runtime Record Special.

Section Spec.
Context {obj ty W : Type} (R : Rt obj ty W).
Notation P := (rt_py R).
Notation cls := (@cls obj ty W).
Notation world := (@world obj ty W).
Notation stmt := (@stmt obj ty W).
Context (ctx : ty -> option cls) (t_record : ty).

(** Python's linearisation (C3): as long as there is something left, take a class that begins
    one of the lists and is not further back in any of them.  (Python takes the first such
    class; here it may be any.) *)
Definition drop (h : ty) (l : list ty) : list ty :=
  match l with x :: r => if ty_eqb P x h then r else l | [] => [] end.
Inductive merges : list (list ty) -> list ty -> Prop :=
| merges_done ls : (forall l, In l ls -> l = []) -> merges ls []
| merges_take ls h r :
    (exists l, In (h :: l) ls) -> (forall l, In l ls -> ~ In h (tl l)) ->
    merges (map (drop h) ls) r -> merges ls (h :: r).

(** the __mro__ of a new class: what comes after the class itself *)
Definition linearised (wd : world) (s : stmt) : Prop :=
  merges (map (w_mro wd) (m_bases s) ++ [m_bases s]) (m_rest s).

(** Before the first record class: [known] are the classes there are, among them RecordBase,
    with its own __init__, and object, which comes last in every __mro__. *)
Definition ends_with_object (l : list ty) : Prop :=
  exists p, l = p ++ [t_object P] /\ ~ In (t_object P) p.
Record start (wd : world) (known : list ty) : Prop := {
  start_mro : forall t, In t known ->
    ends_with_object (w_mro wd t) /\ incl (w_mro wd t) known /\ exists r, w_mro wd t = t :: r;
  start_record : In t_record known /\ t_record <> t_object P;
  start_init : w_init wd t_record = Some base_init
}.

(** A new class, whose bases are known classes. *)
Definition class_stmt (wd : world) (known : list ty) (s : stmt) : Prop :=
  ~ In (m_ty s) known /\ m_ty s <> t_object P /\ m_bases s <> [] /\
  (forall b, In b (m_bases s) -> In b known) /\ linearised wd s.

(** the statement causes a warning about __init__ *)
Definition init_warning (wd : world) (s : stmt) : bool :=
  smem "__init__" (own_warnings s) || parents_warning R t_record wd s.

(** Programs that declare classes: record classes, which have RecordBase in their __mro__,
    and others.  The list gives the record classes, the last one first, and whether their
    statement caused a warning about __init__. *)
Inductive program : list (stmt * bool) -> world -> list ty -> Prop :=
| program_start wd known : start wd known -> program [] wd known
| program_record ss wd known s :
    program ss wd known -> class_stmt wd known s -> In t_record (m_rest s) ->
    program ((s, init_warning wd s) :: ss) (declare R ctx s wd) (m_ty s :: known)
| program_other ss wd known s :
    program ss wd known -> class_stmt wd known s -> ~ In t_record (m_rest s) ->
    program ss (create_type R s wd) (m_ty s :: known).
End Spec.
