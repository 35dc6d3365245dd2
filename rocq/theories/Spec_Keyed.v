(** Spec_Keyed.v -- what a dict that has frozen records as its keys is expected to do. *)
From Verif Require Import Base Py Select Filler Classes Spec_Classes Runtime Record Spec_Record Spec_Inst Spec_Hist Keyed.

Section Spec.
Context {obj ty W : Type} (R : Rt obj ty W) (ctx : ty -> option (@cls obj ty W)) {V : Type}.
Notation P := (rt_py R).
Notation cls := (@cls obj ty W).
Notation inst := (inst obj ty).
Notation table := (@table obj V).
Context (D : obj -> Prop) (eqb : obj -> obj -> bool) (hf : obj -> Z).

(** [x] is, in state [w], a record that can be a key: an instance of a frozen class, with
    values that can be compared and hashed; its hash, if it has been computed, is right *)
Definition is_key (c : cls) (w : W) (x : obj) (i : inst) : Prop :=
  made P c /\ c_frozen c = true /\ defaults_in D c /\
  instance_of R ctx c w x i /\ values_in D c i /\ hashable R hf c i /\ cache_ok R eqb hf c i.

(** a class and an instance of it; two of them are equal if they have the same class and
    equal values in all fields *)
Definition content := (cls * inst)%type.
Definition equal (p q : content) : Prop :=
  i_cls (snd p) = i_cls (snd q) /\ fieldwise eqb (fst p) (snd p) (snd q).

(** what has been done with the dict, the latest first *)
Inductive event := EPut (p : content) (v : V) | EPop (p : content).
Definition about (e : event) : content := match e with EPut p _ => p | EPop p => p end.

(** the value that [q] has by then: that of the latest assignment to a key equal to [q], none
    if there was no assignment or one equal to [q] has been removed since *)
Inductive held (q : content) : list event -> option V -> Prop :=
| held_never : held q [] None
| held_put p v past : equal p q -> held q (EPut p v :: past) (Some v)
| held_pop p past : equal p q -> held q (EPop p :: past) None
| held_before e past o : ~ equal (about e) q -> held q past o -> held q (e :: past) o.

(** what the rest of the program does to the records: attributes of frozen records are kept,
    and so are hashes that have been computed *)
Definition steady (w w' : W) : Prop := frozen_kept R ctx w w' /\ hashes_kept R w w'.

(** the dicts that programs have, with what has been done with them so far: between two uses
    of the dict the program may do anything, except assigning to _hash or deleting attributes
    of frozen records *)
Inductive used : list event -> table -> W -> Prop :=
| used_new w : used [] [] w
| used_put past t w k v c i t' w' : used past t w -> is_key c w k i -> put R ctx t k v w = (Ok t', w') ->
    used (EPut (c, i) v :: past) t' w'
| used_pop past t w k c i o t' w' : used past t w -> is_key c w k i -> pop R ctx t k w = (Ok (o, t'), w') ->
    used (EPop (c, i) :: past) t' w'
| used_get past t w k c i o w' : used past t w -> is_key c w k i -> get R ctx t k w = (Ok o, w') ->
    used past t w'
| used_else past t w l : used past t w ->
    (forall a, In a l -> allowed ctx steady a /\ no_hash_assignment a) ->
    used past t (after_all R ctx l w).

End Spec.
