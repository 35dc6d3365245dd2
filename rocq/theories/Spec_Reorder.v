(** Spec_Reorder.v -- the same class with its fields in another order. *)
From Verif Require Import Base Py Select Filler Classes Runtime Record.

Section Reorder.
Context {obj ty W : Type}.
Notation cls := (@cls obj ty W).
Notation decl := (@decl obj ty W).

(** the class statement with its annotations in another order, or with other bases first to mention
    their names *)
Definition reordered_statement (d d' : decl) : Prop :=
  exists anns inherited, Permutation (d_anns d) anns /\
  d' = Decl (d_ty d) (d_frozen d) (d_ordered d) (d_unary d) (d_style d) anns inherited (d_static d) (d_bases d) (d_prebind d)
            (d_parsers d) (d_post_new d).

(** the class with its fields in another order *)
Definition reordered (c c' : cls) : Prop :=
  exists fs, Permutation (c_fields c) fs /\
  c' = Cls (c_ty c) fs (c_field_dict c) (c_frozen c) (c_ordered c) (c_unary c) (c_style c) (c_parsers c) (c_post_new c).

(** two records with the same values *)
Definition same_values (i j : inst obj ty) : Prop := forall k, dget k (i_dict j) = dget k (i_dict i).
End Reorder.
