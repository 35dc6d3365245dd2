(** Spec_Streams.v -- what is asked of files and of the module pickle. *)
From Verif Require Import Base Py Select Filler Classes Runtime Record Streams.
Open Scope string_scope.
Open Scope list_scope.

(** a file whose writes succeed *)
Definition reliable (dev : device) : Prop := forall c s, dev c s = (Ok tt, (c ++ s)%string).

(** a file whose writes may fail at any time, possibly after part of the text, but which never
    loses what it contains *)
Definition append_only (dev : device) : Prop :=
  forall c s, exists t, snd (dev c s) = (c ++ t)%string /\ (fst (dev c s) = Ok tt -> t = s).

Section Spec.
Context {obj ty W : Type} (R : Rt obj ty W) (C : @Codecs obj W).
Notation cls := (@cls obj ty W).

(** pickles can be told apart: reading from a file that starts with the pickle of an object
    gives what reading from the pickle alone gives, and leaves the rest *)
Definition self_delimiting (dargs : list obj) (dkw : dict obj) (args : list obj) (kw : dict obj) : Prop :=
  forall x w b w', to_pickle C x dargs dkw w = (Ok b, w') ->
  forall rest w1 r w2 e, pickle_parse C args kw (w1, b) = (r, (w2, e)) ->
  exists e', pickle_parse C args kw (w1, (b ++ rest)%string) = (r, (w2, e')) /\ (forall v, r = Ok v -> e' = rest).

(** writing records to a file one after the other, and reading them again *)
Fixpoint write_all (dev : device) (xs : list obj) (args : list obj) (kw : dict obj) : M (W * string) unit :=
  match xs with
  | [] => ret tt
  | x :: r => let* _ := to_pickle_io C dev x args kw in write_all dev r args kw
  end.
Fixpoint read_all (fuel : nat) (n : nat) (c : cls) (args : list obj) (kw : dict obj) : M (W * string) (list obj) :=
  match n with
  | O => ret []
  | S n => let* x := from_pickle_io R C fuel c args kw in
           let* r := read_all fuel n c args kw in ret (x :: r)
  end.
End Spec.
