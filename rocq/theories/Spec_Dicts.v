(** Spec_Dicts.v -- what mappings hold, and which dicts a call leaves alone. *)
From Verif Require Import Base Select Spec_Select Dicts.
Open Scope list_scope.

Section Spec.
Context {V : Type}.

(** every dict that was there is there with the same items *)
Definition kept (h h' : heap V) : Prop :=
  forall a c, nth_error h a = Some c -> nth_error h' a = Some c.
(** the same, but for one dict *)
Definition kept_but (a : nat) (h h' : heap V) : Prop :=
  forall b c, b <> a -> nth_error h b = Some c -> nth_error h' b = Some c.

(** mappings of the program that show the same items at all times, and change no dict *)
Definition user_shows (user_keys : nat -> M (heap V) (list string)) (user_item : nat -> string -> M (heap V) V)
  (us : nat -> dict V) : Prop :=
  forall u h, dict_ok (us u) /\ user_keys u h = (Ok (keys (us u)), h) /\
    forall k, user_item u k h = (match dget k (us u) with Some v => Ok v | None => Raise (mkexc KeyError k) end, h).

(** the value a mapping has for a key; of a ChainMap, the value in the first that has the key *)
Fixpoint holds (us : nat -> dict V) (h : heap V) (m : mapping) (k : string) : option V :=
  match m with
  | MDict a => match nth_error h a with Some c => dget k (items c) | None => None end
  | MProxy m => holds us h m k
  | MChain ms =>
      (fix first (ms : list mapping) : option V :=
         match ms with
         | [] => None
         | m :: r => match holds us h m k with Some v => Some v | None => first r end
         end) ms
  | MUser u => dget k (us u)
  end.

(** no defaultdict is in it *)
Fixpoint ordinary (h : heap V) (m : mapping) : Prop :=
  match m with
  | MDict a => exists d, nth_error h a = Some (Cell d None) /\ dict_ok d
  | MProxy m => ordinary h m
  | MChain ms => (fix all (ms : list mapping) : Prop := match ms with [] => True | m :: r => ordinary h m /\ all r end) ms
  | MUser _ => True
  end.

(** the edits that the arguments of a Select ask for, in their documented order *)
Definition asked (s : sel V) : list (edit V) :=
  map Remove (elements (s_rem s)) ++ map MaybeRemove (elements (s_mrem s))
  ++ map (fun p => Rename (fst p) (snd p)) (elements (s_ren s))
  ++ map (fun p => MaybeRename (fst p) (snd p)) (elements (s_mren s))
  ++ map (fun p => Add (fst p) (snd p)) (elements (s_add s))
  ++ map (fun p => MaybeAdd (fst p) (snd p)) (elements (s_madd s)).

(** [first], and where it has nothing, [second] *)
Definition over (first second : string -> option V) (k : string) : option V :=
  match first k with Some v => Some v | None => second k end.

(** the error of a Select that can not be applied *)
Definition refusal (v : verdict V) : option exc :=
  match v with
  | Done _ => None
  | Missing k => Some (mkexc KeyError k)
  | Occupied k => Some (mkexc ValueError ("key " ++ k ++ " cannot be overridden in map")%string)
  end.
End Spec.
