(** DemoTyping.v -- a concrete run time in which None and Ellipsis are the only instances of
    their classes, and typing's generic classes; used only in examples and refutations. *)
From Verif Require Import Base Py Filler Hints Spec_Typing Spec_Hints Demo.

Definition ttype (x : dobj) : dty :=
  match x with DRef TNone _ | DRef TEllipsis _ => TObject | _ => dtype x end.

(** as [demo0], but for the classes of the heap's objects, and issubclass(v, Any) is an error *)
Definition typed0 : Py dobj dty demo_state := {|
  py_is := dis; py_isP := disP; ty_eqb := dtyb; ty_eqP := dtyP;
  type_of := ttype;
  isinstance := fun x t => dsub (ttype x) t;
  isabstract := isabstract demo0;
  callable := callable demo0;
  issubclass := fun x t => match x, t with
                           | _, TEllipsis => Raise (mkexc TypeError "issubclass() arg 2 must be a class")
                           | DCls c, _ => Ok (dsub (TRec c) t)
                           | _, _ => Raise (mkexc TypeError "issubclass() arg 1 must be a class")
                           end;
  o_none := DNone; o_ellipsis := DEllipsis; o_true := DBool true; o_false := DBool false;
  t_bool := TBool; t_none := TNone; t_ellipsis := TEllipsis; t_object := TObject; t_tuple := TTuple; t_type := TType;
  lit_eq := dlit_eq; hash_error := dhash_error; eq_int := eq_int demo0; elems := elems demo0; items := items demo0;
  rebuild := rebuild demo0; rebuild_map := rebuild_map demo0;
  lit_grown := lit_grown demo0; lit_grow := lit_grow demo0
|}.

(** genric_origin_map; [TIterable] is an entry without a filler for its elements *)
Definition typing0 : @Typing dty := {|
  gmap := fun t => match t with
                   | TList => Some (GIter RkPlain) | TTuple => Some GTuple
                   | TDict => Some (GMap RkPlain) | TIterable => Some GOther
                   | _ => None
                   end;
  special := TEllipsis
|}.

Lemma sane0 : sane typed0 typing0.
Proof.
  assert (R : forall t, dtyb t t = true) by (intros t; destruct (dtyP t t); congruence).
  constructor; cbn; try reflexivity.
  - intros v. unfold dsub. rewrite R. reflexivity.
  - intros v. unfold dsub. destruct (ttype v); reflexivity.
  - intros v H. destruct v as [| | | | | | |[]| | | | | |]; try discriminate; reflexivity.
  - intros v H. destruct v as [| | | | | | |[]| | | | | |]; try discriminate; reflexivity.
  - split; [intros v b e H; cbn in H; destruct v, b; try discriminate; injection H as <-; reflexivity|].
    exact dhash_error_Exception.
  - intros t H. destruct t; discriminate || reflexivity.
Qed.
