(** What tags mean, without hash tables. *)
From Verif Require Import Base Tags.

Section Spec.
Context {tag obj : Type} (K : TagWorld tag obj).

(** [==] of the objects that tags hold is an equivalence, and equal objects that can be hashed
    have equal hashes, as the Python data model demands *)
Record lawful : Prop := {
  law_refl : forall x, obj_eq K x x = true;
  law_sym : forall x y, obj_eq K x y = true -> obj_eq K y x = true;
  law_trans : forall x y z, obj_eq K x y = true -> obj_eq K y z = true -> obj_eq K x z = true;
  law_hash : forall x y h h', obj_eq K x y = true -> obj_hash K x = Some h -> obj_hash K y = Some h' -> h = h'
}.

(** two tags of the same class that hold equal objects *)
Definition same_tag (a b : tag) : Prop := kind K a = kind K b /\ obj_eq K (held K a) (held K b) = true.

(** a field whose annotation has a tag that is the same as [t] *)
Definition marked (ms : list (mark tag)) (t : tag) : Prop := exists a, In (MTag a) ms /\ same_tag a t.

(** tags with objects that can be hashed *)
Definition hashable (t : tag) : Prop := exists h, obj_hash K (held K t) = Some h.

(** a numbering of the tags by what they are equal to *)
Definition numbering (num : tag -> nat) : Prop := forall a b, num a = num b <-> same_tag a b.

End Spec.
