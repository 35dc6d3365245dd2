(** Spec_Anykeys.v -- what Selects are documented to do, on mappings with keys of any kind.

    As Spec_Select.v, but keys are of any type with an equivalence in place of equality: a
    mapping is a function from keys to optional values, a Select is a list of edits. *)
From Verif Require Import Base.

Section Spec.
Context {K A : Type} (keq : K -> K -> bool).

(** == of keys is an equivalence *)
Definition key_equality : Prop :=
  (forall k, keq k k = true) /\ (forall a b, keq a b = true -> keq b a = true) /\
  (forall a b c, keq a b = true -> keq b c = true -> keq a c = true).

(** no two keys of a dict are equal *)
Inductive distinct : list K -> Prop :=
| distinct_nil : distinct []
| distinct_cons k l : (forall k', In k' l -> keq k k' = false) -> distinct l -> distinct (k :: l).

(** the value of the key that is equal to [k] *)
Definition value_of (d : list (K * A)) (k : K) : option A :=
  option_map snd (List.find (fun kv => keq k (fst kv)) d).

Definition update (k : K) (v : option A) (m : K -> option A) : K -> option A :=
  fun k' => if keq k' k then v else m k'.

Inductive key_edit :=
| Remove (k : K)             (* must exist *)
| MaybeRemove (k : K)
| Rename (old new : K)       (* old must exist, new must not *)
| MaybeRename (old new : K)  (* nothing if old does not exist *)
| Add (k : K) (v : A)        (* must not exist *)
| MaybeAdd (k : K) (v : A).  (* nothing if k exists *)

Inductive key_verdict :=
| Done (m : K -> option A)
| Missing     (* a strict edit did not find its key: KeyError *)
| Occupied.   (* the target of an edit already exists: ValueError *)

Definition key_step (e : key_edit) (m : K -> option A) : key_verdict :=
  match e with
  | Remove k => match m k with Some _ => Done (update k None m) | None => Missing end
  | MaybeRemove k => Done (update k None m)
  | Rename o n =>
    match m n, m o with
    | Some _, _ => Occupied
    | None, None => Missing
    | None, Some v => Done (update n (Some v) (update o None m))
    end
  | MaybeRename o n =>
    match m o, m n with
    | None, _ => Done m
    | Some _, Some _ => Occupied
    | Some v, None => Done (update n (Some v) (update o None m))
    end
  | Add k v => match m k with Some _ => Occupied | None => Done (update k (Some v) m) end
  | MaybeAdd k v => match m k with Some _ => Done m | None => Done (update k (Some v) m) end
  end.

Fixpoint key_edits (l : list key_edit) (m : K -> option A) : key_verdict :=
  match l with
  | [] => Done m
  | e :: r => match key_step e m with Done m' => key_edits r m' | v => v end
  end.
End Spec.
Arguments key_edit : clear implicits.
Arguments key_verdict : clear implicits.
