(** Spec_Select.v -- what a Select is documented to do, on abstract finite maps.

    Independent of the model in Select.v: a mapping is a function from keys to
    optional values, a Select is a list of edits carried out one after the
    other (removals, optional removals, renames, optional renames, additions,
    optional additions), and each edit either changes the map or refuses. *)
From Verif Require Import Base.

Section Spec.
Context {A : Type}.

Definition fmap := string -> option A.

Definition fput (k : string) (v : option A) (m : fmap) : fmap :=
  fun k' => if String.eqb k' k then v else m k'.

Inductive edit :=
| Remove (k : string)              (* must exist *)
| MaybeRemove (k : string)
| Rename (old new : string)        (* old must exist, new must not *)
| MaybeRename (old new : string)   (* nothing if old does not exist *)
| Add (k : string) (v : A)         (* must not exist *)
| MaybeAdd (k : string) (v : A).   (* nothing if k exists *)

Inductive verdict :=
| Done (m : fmap)
| Missing (k : string)     (* a strict edit did not find its key: KeyError *)
| Occupied (k : string).   (* the target of an edit already exists: ValueError *)

Definition edit_step (e : edit) (m : fmap) : verdict :=
  match e with
  | Remove k => match m k with Some _ => Done (fput k None m) | None => Missing k end
  | MaybeRemove k => Done (fput k None m)
  | Rename o n =>
    match m n, m o with
    | Some _, _ => Occupied n
    | None, None => Missing o
    | None, Some v => Done (fput n (Some v) (fput o None m))
    end
  | MaybeRename o n =>
    match m o, m n with
    | None, _ => Done m
    | Some _, Some _ => Occupied n
    | Some v, None => Done (fput n (Some v) (fput o None m))
    end
  | Add k v => match m k with Some _ => Occupied k | None => Done (fput k (Some v) m) end
  | MaybeAdd k v => match m k with Some _ => Done m | None => Done (fput k (Some v) m) end
  end.

Fixpoint edits (l : list edit) (m : fmap) : verdict :=
  match l with
  | [] => Done m
  | e :: r => match edit_step e m with Done m' => edits r m' | v => v end
  end.

End Spec.
Arguments edit A : clear implicits.
Arguments fmap A : clear implicits.
Arguments verdict A : clear implicits.
