(** Spec_Extras.v -- programs that replace modules in records.extras, and which modules should be
    used meanwhile. *)
From Verif Require Import Base Py Filler Classes Runtime Record Spec_Hist Streams Extras.

(** a call of a function of a module *)
Inductive use := UJson (m : nat) | UPickle (m : nat).

(** one step of a program: records.extras.json = m, records.extras.pickle = m, or anything else
    that it does with records *)
Inductive event {obj ty W : Type} :=
| PutJson (m : nat)
| PutPickle (m : nat)
| Do (a : @action obj ty W).
Arguments event : clear implicits.

Section Spec.
Context {obj ty W : Type} (E : @Extras obj W) (R : Rt obj ty W) (ctx : ty -> option (@cls obj ty W)).
Context (used : W -> list use).    (* the calls so far, in order *)

Fixpoint run (l : list (event obj ty W)) (w : W) : W :=
  match l with
  | [] => w
  | PutJson m :: r => run r (put_json E m w)
  | PutPickle m :: r => run r (put_pickle E m w)
  | Do a :: r => run r (after (with_extras E R) ctx a w)
  end.

(** the module that was put last *)
Definition last_json (l : list (event obj ty W)) (j : nat) : nat :=
  fold_left (fun j e => match e with PutJson m => m | _ => j end) l j.
Definition last_pickle (l : list (event obj ty W)) (p : nat) : nat :=
  fold_left (fun p e => match e with PutPickle m => m | _ => p end) l p.

(** the calls [us] while the events [l] happen are all of the modules that were put last *)
Definition one_of (j p : nat) (u : use) : Prop := u = UJson j \/ u = UPickle p.
Inductive follows : nat -> nat -> list (event obj ty W) -> list use -> Prop :=
| follows_end j p : follows j p [] []
| follows_json j p m r us : follows m p r us -> follows j p (PutJson m :: r) us
| follows_pickle j p m r us : follows j m r us -> follows j p (PutPickle m :: r) us
| follows_do j p a r now us : Forall (one_of j p) now -> follows j p r us -> follows j p (Do a :: r) (now ++ us).

(** code that replaces nothing and calls only what is in records.extras *)
Definition uses_current (w w' : W) : Prop :=
  extras_json E w' = extras_json E w /\ extras_pickle E w' = extras_pickle E w /\
  exists us, used w' = used w ++ us /\ Forall (one_of (extras_json E w) (extras_pickle E w)) us.

(** a function of a module: its call is noted, whenever it is called.  It may call other
    functions, which, if it is itself the one in records.extras, are those there. *)
Definition notes {A} (u : use) (m : M W A) : Prop :=
  forall w, exists us, used (snd (m w)) = used w ++ u :: us /\
    (one_of (extras_json E w) (extras_pickle E w) u -> uses_current w (snd (m w))).
Definition modules_note : Prop :=
  (forall m x, notes (UJson m) (j_loads (json_modules E m) x)) /\
  (forall m d, notes (UJson m) (j_dumps (json_modules E m) d)) /\
  (forall m l, notes (UPickle m) (p_values (pickle_modules E m) l)).

(** assignments to records.extras change only what is assigned *)
Definition puts : Prop :=
  forall m w,
    (extras_json E (put_json E m w) = m /\ extras_pickle E (put_json E m w) = extras_pickle E w /\ used (put_json E m w) = used w) /\
    (extras_pickle E (put_pickle E m w) = m /\ extras_json E (put_pickle E m w) = extras_json E w /\ used (put_pickle E m w) = used w).

(** records.extras is no record, and no part of a Literal *)
Definition apart : Prop :=
  (forall h w, extras_json E (set_heap R h w) = extras_json E w /\ extras_pickle E (set_heap R h w) = extras_pickle E w /\ used (set_heap R h w) = used w) /\
  (forall l t w, let w' := lit_grow (rt_py R) l t w in extras_json E w' = extras_json E w /\ extras_pickle E w' = extras_pickle E w /\ used w' = used w).

(** the other code of the program, and the classes it uses *)
Definition event_allowed (e : event obj ty W) : Prop :=
  match e with Do a => allowed ctx uses_current a | _ => True end.
End Spec.
