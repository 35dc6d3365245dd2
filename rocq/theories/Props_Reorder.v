(** Props_Reorder.v -- property theorems: the order of the fields of a class (records/record.py:77-158, 168-252, 269-395)
    Each theorem is closed by the lemma of the same statement in Reorder_main.v; the examples
    show that concrete, non-trivial cases meet the hypotheses. *)

From Verif Require Import Base Py Select Filler Classes Spec_Classes Runtime Record Spec_Record Spec_Inst Spec_Seeds Spec_Reorder Demo DemoRt DemoCls.
From Verif Require Dict_proofs Filler_proofs Classes_proofs Record_proofs Classes_main Inst_proofs Inst_main Seeds_main Props_Seeds.
Open Scope string_scope.
Open Scope list_scope.

From Verif Require Import Reorder_main.

(** C164: if the default factories of different fields do not influence each other, and there is no
    post_new, a construction with the same keywords does the same whatever the order of the fields:
    the same error, or the same record, whose attributes may have been set in another order. *)
Theorem c164_construct : forall {obj ty W} (R : Rt obj ty W) n c c' kw w,
  dict_ok (c_fields c) -> reordered c c' -> independent c -> no_post_new R c -> no_reserved kw ->
  match construct R (S n) c None kw w, construct R (S n) c' None kw w with
  | (Ok x, w1), (Ok y, w2) => y = x /\ same_but_order R x w1 w2
  | (Raise e, w1), (Raise e', w2) => e' = e /\ w2 = w1
  | _, _ => False
  end.
Proof. exact (@c164_construct_proof). Qed.
Print Assumptions c164_construct.

(** C164: the same for a positional argument, with or without further keywords, if it is not parsed *)
Theorem c164_positional : forall {obj ty W} (R : Rt obj ty W) n c c' a kw w,
  dict_ok (c_fields c) -> reordered c c' -> independent c -> no_post_new R c -> no_reserved kw -> c_unary c = false \/ kw <> [] ->
  match construct R (S n) c (Some a) kw w, construct R (S n) c' (Some a) kw w with
  | (Ok x, w1), (Ok y, w2) => y = x /\ same_but_order R x w1 w2
  | (Raise e, w1), (Raise e', w2) => e' = e /\ w2 = w1
  | _, _ => False
  end.
Proof. exact (@c164_positional_proof). Qed.
Print Assumptions c164_positional.

(** C164: if a class statement defines a class then so does the statement with its annotations in
    another order, and the two classes differ only in the order of their fields. *)
Theorem c164_statement : forall {obj ty W} (R : Rt obj ty W) d d' c,
  dict_ok (d_anns d) -> reordered_statement d d' -> make_class (rt_py R) d = Ok c ->
  exists c', make_class (rt_py R) d' = Ok c' /\ reordered c c'.
Proof. exact (@c164_statement_proof). Qed.
Print Assumptions c164_statement.

(** C164: whether two records are equal does not depend on the order of the fields. *)
Theorem c164_equal : forall {obj ty W} (R : Rt obj ty W) ctx ctx' D eqb hf c c' w w' x i y j x' i' y' j',
  made (rt_py R) c -> made (rt_py R) c' -> reordered c c' -> has_eq R D eqb -> equivalence D eqb -> defaults_in D c ->
  instance_of R ctx c w x i -> instance_of R ctx c w y j -> instance_of R ctx' c' w' x' i' -> instance_of R ctx' c' w' y' j' ->
  same_values i i' -> same_values j j' -> values_in D c i -> values_in D c j ->
  (c_frozen c = true -> hash_contract D eqb hf /\ hashable R hf c i /\ hashable R hf c j /\
     cache_ok R eqb hf c i /\ cache_ok R eqb hf c j /\ cache_ok R eqb hf c' i' /\ cache_ok R eqb hf c' j') ->
  exists b w1 w2, record_eq R ctx x y w = (Ok b, w1) /\ record_eq R ctx' x' y' w' = (Ok b, w2).
Proof. exact (@c164_equal_proof). Qed.
Print Assumptions c164_equal.

(** C164: an export has the same items whatever the order of the fields, in another order; with
    sort=True it is the same dict in the same order. *)
Theorem c164_export : forall {obj ty W} (R : Rt obj ty W) ctx ctx' D eqb c c' a black w w' x i x' i',
  made (rt_py R) c -> made (rt_py R) c' -> reordered c c' -> has_eq R D eqb -> defaults_in D c ->
  instance_of R ctx c w x i -> instance_of R ctx' c' w' x' i' -> same_values i i' -> values_in D c i -> e_black a = BlackSet black ->
  exists d d', to_dict R ctx x a sel_empty w = (Ok d, w) /\ to_dict R ctx' x' a sel_empty w' = (Ok d', w') /\ Permutation d d' /\
    (e_sort a = SortAsc \/ e_sort a = SortDesc -> d' = d).
Proof. exact (@c164_export_proof). Qed.
Print Assumptions c164_export.

(** C164, refuted for the comparisons: exchanging two fields changes which record is less. *)
Theorem c164_less_refuted : exists (R : Rt dobj dty rstate) d d' c c' x y w1 w2 w1' w2',
  make_class (rt_py R) d = Ok c /\ make_class (rt_py R) d' = Ok c' /\ reordered c c' /\
  construct R 1 c None [("a", DInt 1); ("b", DInt 2)] w0 = (Ok x, w1) /\ construct R 1 c None [("a", DInt 2); ("b", DInt 1)] w1 = (Ok y, w2) /\
  construct R 1 c' None [("a", DInt 1); ("b", DInt 2)] w0 = (Ok x, w1') /\ construct R 1 c' None [("a", DInt 2); ("b", DInt 1)] w1' = (Ok y, w2') /\
  compare R (fun _ => Some c) CLt x y w2 = (Ok true, w2) /\ compare R (fun _ => Some c') CLt x y w2' = (Ok false, w2').
Proof. exact (@c164_less_refuted_proof). Qed.
Print Assumptions c164_less_refuted.

Import Props_Seeds.
(** the class of C152, with its fields the other way round, and a class with the second field first *)
Definition calm_backwards : @decl dobj dty rstate :=
  Decl (d_ty calm_decl) (d_frozen calm_decl) (d_ordered calm_decl) (d_unary calm_decl) (d_style calm_decl) (rev (d_anns calm_decl)) ["c"; "x"]
       (d_static calm_decl) (d_bases calm_decl) (d_prebind calm_decl) (d_parsers calm_decl) (d_post_new calm_decl).
Example c164_case : dict_ok (d_anns calm_decl) /\ reordered_statement calm_decl calm_backwards /\
  make_class (rt_py (demo_rt 0)) calm_decl = Ok (made_of calm_decl) /\
  keys (c_fields (made_of calm_decl)) = ["a"; "b"; "c"; "d"] /\ keys (c_fields (made_of calm_backwards)) = ["c"; "d"; "b"; "a"] /\
  independent (made_of calm_decl) /\ no_post_new (demo_rt 0) (made_of calm_decl) /\ no_reserved [("b", DNone)] /\
  exists x w1 w2, construct (demo_rt 0) 1 (made_of calm_decl) None [("b", DNone)] w0 = (Ok x, w1) /\
    construct (demo_rt 0) 1 (made_of calm_backwards) None [("b", DNone)] w0 = (Ok x, w2) /\ w1 <> w2 /\
    instance_of (demo_rt 0) (fun _ => Some (made_of calm_decl)) (made_of calm_decl) w1 x (Inst (TRec 0) [("b", DNone); ("a", DInt 1); ("c", DNone); ("d", DNone)] SUnset) /\
    instance_of (demo_rt 0) (fun _ => Some (made_of calm_backwards)) (made_of calm_backwards) w2 x (Inst (TRec 0) [("b", DNone); ("c", DNone); ("d", DNone); ("a", DInt 1)] SUnset).
Proof.
  split; [repeat constructor; simpl; intuition discriminate|]. split.
  { exists (rev (d_anns calm_decl)), ["c"; "x"]. split; [apply Permutation_rev|reflexivity]. }
  split; [reflexivity|]. split; [reflexivity|]. split; [reflexivity|]. split; [apply (proj1 (proj2 c152_case))|]. split; [intros x w; reflexivity|].
  split; [intros k [<-|[]] HX; vm_compute in HX; repeat (destruct HX as [HX|HX]); discriminate || contradiction|].
  do 3 eexists. split; [reflexivity|]. split; [reflexivity|]. split; [discriminate|].
  split; (split; [reflexivity|]; split; [reflexivity|]; split; [reflexivity|]; split; [reflexivity|]);
    intros k H; vm_compute in H; destruct H as [<-|[<-|[<-|[<-|[]]]]]; eexists; reflexivity.
Qed.

(** one positional argument for the only required field *)
Definition named_decl (fs : list (string * (@ann dobj dty rstate * @default dobj rstate))) := rdecl 0 false false (Some false) SCheck fs [] no_post.
Definition named_fields : list (string * (@ann dobj dty rstate * @default dobj rstate)) :=
  [("a", (an TInt, DefVal (DInt 1))); ("b", (an TInt, NoDefault)); ("c", (an TNone, DefVal DNone)); ("d", (an TInt, DefVal (DInt 0)))].
Example c164_positional_case : let c := made_of (named_decl named_fields) in let c' := made_of (named_decl (rev named_fields)) in
  keys (c_fields c) = ["a"; "b"; "c"; "d"] /\ reordered c c' /\ independent c /\ no_post_new (demo_rt 0) c /\ no_reserved [("d", DInt 2)] /\ [("d", DInt 2)] <> [] /\
  exists x w1 w2, construct (demo_rt 0) 1 c (Some (DInt 5)) [("d", DInt 2)] w0 = (Ok x, w1) /\
    construct (demo_rt 0) 1 c' (Some (DInt 5)) [("d", DInt 2)] w0 = (Ok x, w2) /\ w1 <> w2.
Proof.
  cbv zeta. split; [reflexivity|]. split.
  { exists (rev (c_fields (made_of (named_decl named_fields)))). split; [apply Permutation_rev|reflexivity]. }
  split.
  { intros k f g k' f' g' E D E' D' N w. unfold made_of in E, E'. cbn in E, E'.
    repeat match goal with H : (if ?b then _ else _) = Some _ |- _ => destruct b; [injection H as <-|] end; try discriminate. }
  split; [intros x w; reflexivity|].
  split; [intros k [<-|[]] HX; vm_compute in HX; repeat (destruct HX as [HX|HX]); discriminate || contradiction|]. split; [discriminate|].
  do 3 eexists. split; [reflexivity|]. split; [reflexivity|]. discriminate.
Qed.
