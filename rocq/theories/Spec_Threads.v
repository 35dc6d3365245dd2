(** Spec_Threads.v -- programs with several threads that use the same records. *)
From Verif Require Import Base Py Select Filler Spec_Filler Classes Spec_Classes Runtime Record Spec_Record Spec_Inst Threads.

Section Spec.
Context {obj ty W : Type} (R : Rt obj ty W).
Notation P := (rt_py R).
Notation cls := (@cls obj ty W).
Context (ctx : ty -> option cls).

(** what a thread can do with records that it shares with others *)
Inductive job :=
| JHash (x : obj)
| JEq (x y : obj)
| JToDict (x : obj) (a : export_args) (s : sel obj)
| JSet (x : obj) (k : string) (v : obj)
| JOther (m : M W unit).
Inductive answer :=
| NHash (z : Z)
| NEq (b : bool)
| NDict (d : dict obj)
| NNothing.

(** the job, in steps *)
Definition job_steps (j : job) : proc (W:=W) answer :=
  match j with
  | JHash x => pbind (hash_t R ctx x) (fun z => Done (Ok (NHash z)))
  | JEq x y => pbind (eq_t R ctx x y) (fun b => Done (Ok (NEq b)))
  | JToDict x a s => pbind (to_dict_t R ctx x a s) (fun d => Done (Ok (NDict d)))
  | JSet x k v => pbind (atom (setattr R ctx x k v)) (fun _ => Done (Ok NNothing))
  | JOther m => pbind (atom m) (fun _ => Done (Ok NNothing))
  end.

(** the job, if there is only one thread *)
Definition job_alone (j : job) : M W answer :=
  match j with
  | JHash x => let* z := record_hash R ctx x in ret (NHash z)
  | JEq x y => let* b := record_eq R ctx x y in ret (NEq b)
  | JToDict x a s => let* d := to_dict R ctx x a s in ret (NDict d)
  | JSet x k v => let* _ := setattr R ctx x k v in ret NNothing
  | JOther m => let* _ := m in ret NNothing
  end.

(** a thread does one job after the other, catches exceptions and remembers all outcomes *)
Fixpoint caught {A} (p : proc (W:=W) A) : proc (W:=W) (outcome A) :=
  match p with
  | Done o => Done (Ok o)
  | Step k => Step (fun w => match k w with (p', w') => (caught p', w') end)
  end.
Fixpoint thread (js : list job) : proc (W:=W) (list (outcome answer)) :=
  match js with
  | [] => Done (Ok [])
  | j :: r => pbind (caught (job_steps j)) (fun o => pbind (thread r) (fun os => Done (Ok (o :: os))))
  end.

(** A schedule says which thread makes the next step.  If there is no such thread, or it is
    done, nothing happens. *)
Fixpoint replaced {A} (n : nat) (x : A) (l : list A) : list A :=
  match l, n with
  | [], _ => []
  | _ :: r, O => x :: r
  | y :: r, S n' => y :: replaced n' x r
  end.
Fixpoint execute {A} (sched : list nat) (pool : list (proc (W:=W) A)) (w : W) : list (proc (W:=W) A) * W :=
  match sched with
  | [] => (pool, w)
  | n :: r =>
      match nth_error pool n with
      | Some (Step k) => match k w with (p, w') => execute r (replaced n p pool) w' end
      | _ => execute r pool w
      end
  end.

(** all states that there are on the way *)
Fixpoint moments {A} (sched : list nat) (pool : list (proc (W:=W) A)) (w : W) : list W :=
  w :: match sched with
       | [] => []
       | n :: r =>
           match nth_error pool n with
           | Some (Step k) => match k w with (p, w') => moments r (replaced n p pool) w' end
           | _ => moments r pool w
           end
       end.

(** In state [w], [x] is a record of a frozen class; == and hash of its field values and
    defaults just give answers. *)
Definition shareable (D : obj -> Prop) (hf : obj -> Z) (w : W) (x : obj) : Prop :=
  exists c i, made P c /\ instance_of R ctx c w x i /\ c_frozen c = true /\
    defaults_in D c /\ values_in D c i /\ hashable R hf c i.

(** the job only looks at such records, or tries to assign to their fields; other code does
    not touch records of frozen classes *)
Definition sharing (D : obj -> Prop) (hf : obj -> Z) (w : W) (j : job) : Prop :=
  match j with
  | JHash x => shareable D hf w x
  | JEq x y => shareable D hf w x /\ shareable D hf w y
  | JToDict x a s => shareable D hf w x
  | JSet x k v => (exists c i, instance_of R ctx c w x i /\ c_frozen c = true) /\ k <> "_hash"%string
  | JOther m => forall w1 x i c, lookup R w1 x = Some i -> ctx (i_cls i) = Some c -> c_frozen c = true ->
                lookup R (snd (m w1)) x = Some i
  end.

(** in [w'] the records of frozen classes have all fields as in [w] *)
Definition frozen_as_in (w w' : W) : Prop :=
  forall x i c, lookup R w x = Some i -> ctx (i_cls i) = Some c -> c_frozen c = true ->
  exists j, lookup R w' x = Some j /\ i_cls j = i_cls i /\ i_dict j = i_dict i.

End Spec.
Arguments NHash {obj}.
Arguments NEq {obj}.
Arguments NDict {obj}.
Arguments NNothing {obj}.
Arguments JHash {obj W}.
Arguments JEq {obj W}.
Arguments JToDict {obj W}.
Arguments JSet {obj W}.
Arguments JOther {obj W}.
