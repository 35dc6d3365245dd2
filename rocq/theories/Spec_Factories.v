(** Spec_Factories.v -- what it means to combine several mappings, and to print a record. *)
From Verif Require Import Base Py Select Filler Classes Runtime Record Spec_Record.

(** [v] is the value of [k] in the first of the mappings that has [k] *)
Definition first_with {A} (k : string) (ds : list (dict A)) (v : A) : Prop :=
  exists before d after, ds = before ++ d :: after /\ dget k d = Some v /\ forall d', In d' before -> dget k d' = None.

(** [name(k1=r1, k2=r2, ...)] *)
Definition call_text {A} (name : string) (show : A -> string) (d : dict A) : string :=
  (name ++ "(" ++ String.concat ", " (map (fun kv => fst kv ++ "=" ++ show (snd kv)) d) ++ ")")%string.
