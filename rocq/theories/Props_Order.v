(** Props_Order.v -- property theorems: ordering and subclasses
    Each theorem is closed by the lemma of the same statement in Order_main.v; the examples
    show that concrete, non-trivial cases meet the hypotheses. *)

From Verif Require Import Base Py Select Filler Classes Spec_Classes Runtime Record Spec_Record Spec_Inst Demo DemoRt DemoCls.
From Verif Require Dict_proofs Filler_proofs Classes_proofs Record_proofs Inst_proofs Inst_main.
Open Scope string_scope.
Open Scope list_scope.

From Verif Require Import Order_main.

(** C90: [x] is an instance of an ordered class, [y] of an ordered subclass.  Whichever is on the
    left, the answer is the same, errors and effects included. *)
Theorem c90_mirror_partial : forall {obj ty W} (R : Rt obj ty W) ctx c w x i c' y j,
  c_ordered c = true -> c_ordered c' = true -> instance_of R ctx c w x i -> instance_of R ctx c' w y j ->
  isinstance (rt_py R) y (c_ty c) = true -> isinstance (rt_py R) x (c_ty c') = false ->
  compare R ctx CLt x y w = compare R ctx CGt y x w /\
  compare R ctx CLe x y w = compare R ctx CGe y x w /\
  compare R ctx CGt x y w = compare R ctx CLt y x w /\
  compare R ctx CGe x y w = compare R ctx CLe y x w.
Proof. exact (@c90_mirror_partial_proof). Qed.
Print Assumptions c90_mirror_partial.

(** C90: if the subclass only adds fields (in [extra] those that ordering looks at), the order is
    the lexicographic order of the fields of the base class; on a tie, the instance of the
    subclass is the greater one if it has more fields to compare, and otherwise equal. *)
Theorem c90_lexicographic_partial : forall {obj ty W} (R : Rt obj ty W) ctx eqb ltb D c w x i c' y j extra,
  c_ordered c = true -> c_ordered c' = true -> instance_of R ctx c w x i -> instance_of R ctx c' w y j ->
  isinstance (rt_py R) y (c_ty c) = true -> isinstance (rt_py R) x (c_ty c') = false ->
  ordering_fields c' = ordering_fields c ++ extra ->
  (forall k, In k (ordering_fields c) -> ordered_domain R eqb ltb (D k)) ->
  (forall k v, In k (ordering_fields c) -> dget k (i_dict i) = Some v -> D k v) ->
  (forall k v, In k (ordering_fields c) -> dget k (i_dict j) = Some v -> D k v) ->
  exists lt le gt ge,
    compare R ctx CLt x y w = (Ok lt, w) /\ compare R ctx CLe x y w = (Ok le, w) /\
    compare R ctx CGt x y w = (Ok gt, w) /\ compare R ctx CGe x y w = (Ok ge, w) /\
    (lt = true <-> lex_less eqb ltb (ordering_fields c) i j \/ (lex_equal eqb (ordering_fields c) i j /\ extra <> [])) /\
    (le = true <-> lex_less eqb ltb (ordering_fields c) i j \/ lex_equal eqb (ordering_fields c) i j) /\
    (gt = true <-> lex_less eqb ltb (ordering_fields c) j i) /\
    (ge = true <-> lex_less eqb ltb (ordering_fields c) j i \/ (lex_equal eqb (ordering_fields c) i j /\ extra = [])).
Proof. exact (@c90_lexicographic_partial_proof). Qed.
Print Assumptions c90_lexicographic_partial.

(** C90 does not hold for any subclass whose declaration does not repeat ordered=True: its
    instances, although they are instances of an ordered class, can be compared with nothing. *)
Theorem c90_default_refuted : forall {obj ty W} (R : Rt obj ty W) ctx d c c' op w x i y j,
  make_class (rt_py R) d = Ok c' -> In (BRecord c) (d_bases d) -> d_ordered d = false -> c_ordered c = true ->
  instance_of R ctx c w x i -> instance_of R ctx c' w y j ->
  isinstance (rt_py R) y (c_ty c) = true -> isinstance (rt_py R) x (c_ty c') = false ->
  (exists m, compare R ctx op x y w = (Raise (mkexc TypeError m), w)) /\
  (exists m, compare R ctx op y x w = (Raise (mkexc TypeError m), w)) /\
  (exists m, compare R ctx op y y w = (Raise (mkexc TypeError m), w)).
Proof. exact (@c90_default_refuted_proof). Qed.
Print Assumptions c90_default_refuted.

(** a subclass that does not repeat ordered=True *)
Example c90_default_case :
  exists (d d' : @decl dobj dty rstate) c c' ctx w x i y j,
    make_class rt0 d = Ok c /\ d_ordered d = true /\
    make_class rt0 d' = Ok c' /\ d_bases d' = [BRecord c] /\ d_ordered d' = false /\
    instance_of (demo_rt 0) ctx c w x i /\ instance_of (demo_rt 0) ctx c' w y j /\
    isinstance (rt_py (demo_rt 0)) y (c_ty c) = true /\
    forall op, (exists m, compare (demo_rt 0) ctx op x y w = (Raise (mkexc TypeError m), w)) /\
               (exists m, compare (demo_rt 0) ctx op y x w = (Raise (mkexc TypeError m), w)) /\
               (exists m, compare (demo_rt 0) ctx op y y w = (Raise (mkexc TypeError m), w)).
Proof.
  exists order_base, (order_sub false), (made_of order_base), (made_of (order_sub false)), (order_ctx false), order_w.
  exists (DRef (TRec 0) 0), (Inst (TRec 0) [("x", DInt 1); ("y", DInt 2)] SNone), (DRef (TRec 100) 1), (Inst (TRec 100) [("x", DInt 1); ("y", DInt 2); ("z", DInt 0)] SNone).
  split; [reflexivity|]. split; [reflexivity|]. split; [reflexivity|]. split; [reflexivity|]. split; [reflexivity|].
  split; [repeat split; intros k [<-|[<-|[]]]; eexists; reflexivity|].
  split; [repeat split; intros k [<-|[<-|[<-|[]]]]; eexists; reflexivity|]. split; [reflexivity|].
  intros op. destruct op; split; try (eexists; reflexivity); split; eexists; reflexivity.
Qed.

Example c90_case :
  let c := made_of order_base in let c' := made_of (order_sub true) in
  make_class rt0 (order_sub true) = Ok c' /\ c_ordered c = true /\ c_ordered c' = true /\
  ordering_fields c' = ordering_fields c ++ ["z"] /\
  instance_of (demo_rt 0) (order_ctx true) c order_w (DRef (TRec 0) 0) (Inst (TRec 0) [("x", DInt 1); ("y", DInt 2)] SNone) /\
  instance_of (demo_rt 0) (order_ctx true) c' order_w (DRef (TRec 100) 1) (Inst (TRec 100) [("x", DInt 1); ("y", DInt 2); ("z", DInt 0)] SNone) /\
  isinstance (rt_py (demo_rt 0)) (DRef (TRec 100) 1) (c_ty c) = true /\ isinstance (rt_py (demo_rt 0)) (DRef (TRec 0) 0) (c_ty c') = false /\
  compare (demo_rt 0) (order_ctx true) CLt (DRef (TRec 0) 0) (DRef (TRec 100) 1) order_w = (Ok true, order_w) /\
  compare (demo_rt 0) (order_ctx true) CGt (DRef (TRec 100) 1) (DRef (TRec 0) 0) order_w = (Ok true, order_w) /\
  compare (demo_rt 0) (order_ctx true) CLt (DRef (TRec 0) 0) (DRef (TRec 100) 2) order_w = (Ok false, order_w) /\
  compare (demo_rt 0) (order_ctx true) CLt (DRef (TRec 100) 2) (DRef (TRec 0) 0) order_w = (Ok true, order_w).
Proof.
  cbv zeta. split; [reflexivity|]. split; [reflexivity|]. split; [reflexivity|]. split; [reflexivity|].
  split; [repeat split; intros k [<-|[<-|[]]]; eexists; reflexivity|].
  split; [repeat split; intros k [<-|[<-|[<-|[]]]]; eexists; reflexivity|]. repeat split.
Qed.
