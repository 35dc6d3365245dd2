(** Spec_Through.v -- classes and their ancestors, and what a class exports of an object. *)
From Verif Require Import Base Py Select Filler Classes Spec_Classes Runtime Record Through.
Open Scope string_scope.
Open Scope list_scope.

Section Spec.
Context {obj ty W : Type} (P : Py obj ty W).
Notation cls := (@cls obj ty W).

(** the record class [c] is [a], or a class statement made it with a base that descends from [a] *)
Inductive descends : cls -> cls -> Prop :=
| descends_self c : made P c -> descends c c
| descends_base d c b a : make_class P d = Ok c -> made P c -> In (BRecord b) (d_bases d) -> descends b a -> descends c a.

(** no blacklisted tag, or whitelisted *)
Definition wanted (a : export_args) (black : list nat) (k : string) (f : @field obj ty W) : Prop :=
  In k (e_white a) \/ forall t, In t (f_tags f) -> ~ In t black.
End Spec.

(** what has been given to export_with, and the merge of what has been given to select *)
Definition given_args {A : Type} (l : list (chain_op A)) : list A :=
  flat_map (fun o => match o with ExportWith a _ => a | Selecting _ _ => [] end) l.
Definition given_keywords {A : Type} (l : list (chain_op A)) : dict A :=
  fold_left (fun kw o => match o with ExportWith _ k => dupdate kw k | Selecting _ _ => kw end) l [].
Fixpoint given_select {A : Type} (s : sel A) (l : list (chain_op A)) : outcome (sel A) :=
  match l with
  | [] => Ok s
  | Selecting ss kw :: r => do s1 <- sel_merge s ss kw; given_select s1 r
  | ExportWith _ _ :: r => given_select s r
  end.
