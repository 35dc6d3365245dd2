(** Props_Inst.v -- property theorems: exporting, comparing, hashing and ordering record instances (RecordBase._to_dict, __eq__, __hash__, __lt__ ...)
    Each theorem is closed by the lemma of the same statement in Inst_main.v; the examples
    show that concrete, non-trivial cases meet the hypotheses. *)

From Verif Require Import Base Py Select Filler Classes Spec_Classes Runtime Record Spec_Record Spec_Inst Demo DemoRt DemoCls.
From Verif Require Dict_proofs Filler_proofs Classes_proofs Record_proofs Classes_main Inst_proofs.
Open Scope string_scope.
Open Scope list_scope.

From Verif Require Import Inst_main.

(** C32: to_dict(...) gives, in field order, exactly the fields that are whitelisted, or
    that carry no blacklisted tag and are either include_defaults or not equal to a
    non-factory default, each with the attribute of the instance; and it changes nothing. *)
Theorem c32_to_dict : forall {obj ty W} (R : Rt obj ty W) ctx D eqb c a black w x i,
  made (rt_py R) c -> has_eq R D eqb -> defaults_in D c -> instance_of R ctx c w x i -> values_in D c i ->
  e_black a = BlackSet black -> e_sort a = SortNone ->
  exists d, to_dict R ctx x a sel_empty w = (Ok d, w) /\ NoDup (keys d) /\
    keys d = filter (fun k => smem k (keys d)) (keys (c_fields c)) /\
    forall k v, In (k, v) d <->
      exists f, dget k (c_fields c) = Some f /\ dget k (i_dict i) = Some v /\ to_export eqb a black k f v.
Proof. exact (@c32_to_dict_proof). Qed.
Print Assumptions c32_to_dict.

(** C33: with sort, to_dict gives the same pairs, sorted by key; pairs whose keys the order
    does not tell apart stay in field order. *)
Theorem c33_sorted : forall {obj ty W} (R : Rt obj ty W) ctx (incl : bool) s black white x w d w' le,
  order_of s = Some le -> (forall le', s = SortKey le' -> total_preorder le') ->
  to_dict R ctx x (ExportArgs incl SortNone black white) sel_empty w = (Ok d, w') ->
  exists d', to_dict R ctx x (ExportArgs incl s black white) sel_empty w = (Ok d', w') /\
    Permutation d d' /\ sorted_by le d' /\
    forall k, filter (fun kv => le k (fst kv) && le (fst kv) k) d' = filter (fun kv => le k (fst kv) && le (fst kv) k) d.
Proof. exact (@c33_sorted_proof). Qed.
Print Assumptions c33_sorted.

(** C53: comparing two instances of one class says whether all fields are equal, whether
    the class is frozen (with hashable fields) or not, and changes no field of anything. *)
Theorem c53_fieldwise : forall {obj ty W} (R : Rt obj ty W) ctx D eqb hf c w x i y j,
  made (rt_py R) c -> has_eq R D eqb -> equivalence D eqb -> defaults_in D c ->
  instance_of R ctx c w x i -> instance_of R ctx c w y j -> values_in D c i -> values_in D c j ->
  (c_frozen c = true -> hash_contract D eqb hf /\ hashable R hf c i /\ hashable R hf c j /\
                        cache_ok R eqb hf c i /\ cache_ok R eqb hf c j) ->
  exists b w', record_eq R ctx x y w = (Ok b, w') /\ (b = true <-> fieldwise eqb c i j) /\ fields_kept R w w'.
Proof. exact (@c53_fieldwise_proof). Qed.
Print Assumptions c53_fieldwise.

(** C53: instances of different classes are never equal. *)
Theorem c53_other_class : forall {obj ty W} (R : Rt obj ty W) ctx c w x i y,
  instance_of R ctx c w x i -> type_of (rt_py R) y <> type_of (rt_py R) x ->
  record_eq R ctx x y w = (Ok false, w).
Proof. exact (@c53_other_class_proof). Qed.
Print Assumptions c53_other_class.

(** C53: == on the instances of a class is an equivalence. *)
Theorem c53_equivalence : forall {obj ty W} (R : Rt obj ty W) ctx D eqb hf c w,
  made (rt_py R) c -> has_eq R D eqb -> equivalence D eqb -> defaults_in D c ->
  let good x := exists i, instance_of R ctx c w x i /\ values_in D c i /\
     (c_frozen c = true -> hash_contract D eqb hf /\ hashable R hf c i /\ cache_ok R eqb hf c i) in
  let equal x y := exists w', record_eq R ctx x y w = (Ok true, w') in
  (forall x, good x -> equal x x) /\
  (forall x y, good x -> good y -> equal x y -> equal y x) /\
  (forall x y z, good x -> good y -> good z -> equal x y -> equal y z -> equal x z).
Proof. exact (@c53_equivalence_proof). Qed.
Print Assumptions c53_equivalence.

(** C52: equal frozen instances have the same hash. *)
Theorem c52_equal_hash : forall {obj ty W} (R : Rt obj ty W) ctx D eqb hf c w x i y j w',
  made (rt_py R) c -> has_eq R D eqb -> equivalence D eqb -> defaults_in D c -> c_frozen c = true -> hash_contract D eqb hf ->
  instance_of R ctx c w x i -> instance_of R ctx c w y j -> values_in D c i -> values_in D c j ->
  hashable R hf c i -> hashable R hf c j -> cache_ok R eqb hf c i -> cache_ok R eqb hf c j ->
  record_eq R ctx x y w = (Ok true, w') ->
  exists z, fst (record_hash R ctx x w) = Ok z /\ fst (record_hash R ctx y w) = Ok z /\
            record_hash R ctx x w' = (Ok z, w') /\ record_hash R ctx y w' = (Ok z, w').
Proof. exact (@c52_equal_hash_proof). Qed.
Print Assumptions c52_equal_hash.

(** C54 holds for classes that are not frozen: == gives an answer and changes nothing. *)
Theorem c54_not_frozen_partial : forall {obj ty W} (R : Rt obj ty W) ctx D eqb c w x i y j,
  made (rt_py R) c -> has_eq R D eqb -> c_frozen c = false ->
  instance_of R ctx c w x i -> instance_of R ctx c w y j -> values_in D c i -> values_in D c j ->
  exists b, record_eq R ctx x y w = (Ok b, w) /\ (b = true <-> fieldwise eqb c i j).
Proof. exact (@c54_not_frozen_partial_proof). Qed.
Print Assumptions c54_not_frozen_partial.

(** C54 fails for every frozen class: == hashes first.  If a field that is not equal to its
    default has an unhashable value, comparing the record with any record of the class raises what
    hashing a value raised, although all values can be compared. *)
Theorem c54_frozen_refuted : forall {obj ty W} (R : Rt obj ty W) ctx D eqb c w x i y k f v e,
  made (rt_py R) c -> has_eq R D eqb -> defaults_in D c -> c_frozen c = true ->
  instance_of R ctx c w x i -> values_in D c i -> i_hash i = SNone -> type_of (rt_py R) y = type_of (rt_py R) x ->
  (forall k u, dget k (i_dict i) = Some u -> exists o, v_hash R u w = (o, w)) ->
  dget k (c_fields c) = Some f -> dget k (i_dict i) = Some v -> v_hash R v w = (Raise e, w) ->
  (forall d, f_default f = DefVal d -> eqb d v = false) ->
  exists k' u e', dget k' (i_dict i) = Some u /\ v_hash R u w = (Raise e', w) /\
    record_eq R ctx x y w = (Raise e', w) /\ record_hash R ctx x w = (Raise e', w).
Proof. exact (@c54_frozen_refuted_proof). Qed.
Print Assumptions c54_frozen_refuted.

(** two frozen records with a list in a field: == raises TypeError, although the lists can be
    compared *)
Example c54_frozen_case :
  exists (c : @cls dobj dty rstate) ctx p q w,
  made rt0 c /\ p <> q /\
  (exists i, instance_of (demo_rt 0) ctx c w p i) /\ (exists j, instance_of (demo_rt 0) ctx c w q j) /\
  (forall a b w', exists r, v_ne (demo_rt 0) a b w' = (Ok r, w')) /\
  record_eq (demo_rt 0) ctx p q w = (Raise (mkexc TypeError ""), w).
Proof.
  set (d := rdecl 0 true false (Some false) SCheck [("x", (an TList, NoDefault))] [] no_post).
  exists (made_of d), (fun t => match t with TRec 0 => Some (made_of d) | _ => None end), (DRef (TRec 0) 0), (DRef (TRec 0) 1).
  exists (RState [] [Inst (TRec 0) [("x", dlist [])] SNone; Inst (TRec 0) [("x", dlist [])] SNone] []).
  split; [|split; [discriminate|split; [|split; [|split]]]].
  - apply (made_class _ d); [reflexivity|repeat constructor; simpl; tauto|]. intros b [H|[]]. discriminate.
  - eexists. repeat split. intros k [<-|[]]. eexists. reflexivity.
  - eexists. repeat split. intros k [<-|[]]. eexists. reflexivity.
  - intros a b w'. eexists. reflexivity.
  - reflexivity.
Qed.

(** C57: on instances of an ordered class, <, <=, > and >= are the lexicographic order of
    the fields that are not excluded from ordering, in field order. *)
Theorem c57_lexicographic : forall {obj ty W} (R : Rt obj ty W) ctx eqb ltb D c w x i y j,
  c_ordered c = true -> instance_of R ctx c w x i -> instance_of R ctx c w y j ->
  (forall k, In k (ordering_fields c) -> ordered_domain R eqb ltb (D k)) ->
  (forall k v, In k (ordering_fields c) -> dget k (i_dict i) = Some v -> D k v) ->
  (forall k v, In k (ordering_fields c) -> dget k (i_dict j) = Some v -> D k v) ->
  exists lt le gt ge,
    compare R ctx CLt x y w = (Ok lt, w) /\ compare R ctx CLe x y w = (Ok le, w) /\
    compare R ctx CGt x y w = (Ok gt, w) /\ compare R ctx CGe x y w = (Ok ge, w) /\
    (lt = true <-> lex_less eqb ltb (ordering_fields c) i j) /\
    (le = true <-> lex_less eqb ltb (ordering_fields c) i j \/ lex_equal eqb (ordering_fields c) i j) /\
    (gt = true <-> lex_less eqb ltb (ordering_fields c) j i) /\
    (ge = true <-> lex_less eqb ltb (ordering_fields c) j i \/ lex_equal eqb (ordering_fields c) i j).
Proof. exact (@c57_lexicographic_proof). Qed.
Print Assumptions c57_lexicographic.

(** C57: < is a strict total order up to equality of these fields, and <=, > and >= are
    what they should be. *)
Theorem c57_order : forall {obj ty W} (R : Rt obj ty W) ctx eqb ltb D c w,
  c_ordered c = true ->
  (forall k, In k (ordering_fields c) -> ordered_domain R eqb ltb (D k)) ->
  let good x i := instance_of R ctx c w x i /\ forall k v, In k (ordering_fields c) -> dget k (i_dict i) = Some v -> D k v in
  let holds op x y := fst (compare R ctx op x y w) = Ok true in
  (forall x i, good x i -> ~ holds CLt x x) /\
  (forall x i y j z l, good x i -> good y j -> good z l -> holds CLt x y -> holds CLt y z -> holds CLt x z) /\
  (forall x i y j, good x i -> good y j ->
     (holds CLt x y \/ lex_equal eqb (ordering_fields c) i j \/ holds CLt y x) /\
     (holds CLt x y -> ~ lex_equal eqb (ordering_fields c) i j /\ ~ holds CLt y x) /\
     (holds CLe x y <-> holds CLt x y \/ lex_equal eqb (ordering_fields c) i j) /\
     (holds CGt x y <-> holds CLt y x) /\ (holds CGe x y <-> holds CLe y x) /\
     (holds CLe x y <-> ~ holds CGt x y)).
Proof. exact (@c57_order_proof). Qed.
Print Assumptions c57_order.

(** C58: instances of a class that is not ordered cannot be compared with instances of the
    same or an unrelated class, nor with other objects. *)
Theorem c58_not_ordered : forall {obj ty W} (R : Rt obj ty W) ctx op c w x i y,
  c_ordered c = false -> instance_of R ctx c w x i ->
  isinstance (rt_py R) y (type_of (rt_py R) x) = false \/ type_of (rt_py R) y = type_of (rt_py R) x ->
  exists m, compare R ctx op x y w = (Raise (mkexc TypeError m), w).
Proof. exact (@c58_not_ordered_proof). Qed.
Print Assumptions c58_not_ordered.

(** C58: ... nor with an instance of a subclass, whether that is ordered or not. *)
Theorem c58_not_ordered_subclass : forall {obj ty W} (R : Rt obj ty W) ctx op c w x i c' y j,
  c_ordered c = false -> instance_of R ctx c w x i -> instance_of R ctx c' w y j ->
  isinstance (rt_py R) y (type_of (rt_py R) x) = true -> type_of (rt_py R) y <> type_of (rt_py R) x ->
  isinstance (rt_py R) x (type_of (rt_py R) y) = false ->
  exists m, compare R ctx op x y w = (Raise (mkexc TypeError m), w).
Proof. exact (@c58_not_ordered_subclass_proof). Qed.
Print Assumptions c58_not_ordered_subclass.

(** C58: an ordered instance cannot be compared with an object that is not an instance of
    its class and does not know how to compare itself. *)
Theorem c58_other_object : forall {obj ty W} (R : Rt obj ty W) ctx op c w x i y,
  instance_of R ctx c w x i -> isinstance (rt_py R) y (type_of (rt_py R) x) = false ->
  lookup R w y = None -> (forall op, ext_cmp R op y x w = (Ok None, w)) ->
  exists m, compare R ctx op x y w = (Raise (mkexc TypeError m), w).
Proof. exact (@c58_other_object_proof). Qed.
Print Assumptions c58_other_object.

(** C58: ... nor with an instance of another record class, unless one is a subclass. *)
Theorem c58_other_record : forall {obj ty W} (R : Rt obj ty W) ctx op c w x i c' y j,
  instance_of R ctx c w x i -> instance_of R ctx c' w y j ->
  isinstance (rt_py R) y (type_of (rt_py R) x) = false -> isinstance (rt_py R) x (type_of (rt_py R) y) = false ->
  exists m, compare R ctx op x y w = (Raise (mkexc TypeError m), w).
Proof. exact (@c58_other_record_proof). Qed.
Print Assumptions c58_other_record.

(** A frozen, ordered class with a default, a tag and a field excluded from ordering, its
    instances with integer fields, and what the theorems say about them. *)
Definition declO := rdecl 0 true true (Some false) SCheck
  [("x", (an TInt, NoDefault)); ("y", (AHint (HTy TInt) [ATag 3], DefVal (DInt 0))); ("z", (AHint (HTy TInt) [ATag 0], NoDefault))] [] no_post.
Definition ctxO (t : dty) : option (@cls dobj dty rstate) := match t with TRec 0 => Some (made_of declO) | _ => None end.
Definition ints (x : dobj) : Prop := exists z, x = DInt z.
Definition hf_int (x : dobj) : Z := match x with DInt z => z | _ => 0%Z end.
Definition ltb_int (x y : dobj) : bool := match x, y with DInt a, DInt b => Z.ltb a b | _, _ => false end.
Definition pO a b c h : inst dobj dty := Inst (TRec 0) [("x", DInt a); ("y", DInt b); ("z", DInt c)] h.

Lemma declO_made : made rt0 (made_of declO).
Proof. apply (made_class _ declO); [reflexivity|repeat constructor; simpl; intuition discriminate|]. intros b [H|[]]. discriminate. Qed.
Lemma ints_eq : forall seed, has_eq (demo_rt seed) ints dlit_eq.
Proof. intros seed x y w _ _. split; reflexivity. Qed.
Lemma ints_equivalence : equivalence ints dlit_eq.
Proof.
  split; [|split].
  - intros a [z ->]. cbn. apply Z.eqb_refl.
  - intros a b [z ->] [z' ->]. cbn. rewrite Z.eqb_sym. auto.
  - intros a b c [z ->] [z' ->] [z'' ->]. cbn. rewrite !Z.eqb_eq. congruence.
Qed.
Lemma ints_contract : hash_contract ints dlit_eq hf_int.
Proof. intros a b [z ->] [z' ->]. cbn. apply Z.eqb_eq. Qed.
Lemma ints_ordered : forall seed, ordered_domain (demo_rt seed) dlit_eq ltb_int ints.
Proof.
  intro seed. destruct ints_equivalence as (E1 & E2 & E3). split; [|split; [assumption|split; [assumption|split; [assumption|split; [|split]]]]].
  - intros a b w [z ->] [z' ->]. cbn. split; [reflexivity|]. split; [reflexivity|]. split; [|split; [reflexivity|]].
    + f_equal. f_equal. destruct (Z.leb_spec z z'), (Z.ltb_spec z z'), (Z.eqb_spec z z'); cbn; try reflexivity; lia.
    + f_equal. f_equal. destruct (Z.leb_spec z' z), (Z.ltb_spec z' z), (Z.eqb_spec z z'); cbn; try reflexivity; lia.
  - intros a b c [z ->] [z' ->] [z'' ->]. cbn. rewrite !Z.ltb_lt. lia.
  - intros a b [z ->] [z' ->]. cbn. rewrite !Z.ltb_lt, Z.eqb_eq. lia.
  - intros a b [z ->] [z' ->]. cbn. rewrite Z.ltb_lt, Z.eqb_neq, Z.ltb_ge. lia.
Qed.
Lemma declO_defaults : defaults_in ints (made_of declO).
Proof.
  intros k f d E. cbn in E. destruct (String.eqb k "x"); [injection E as <-; cbn; discriminate|].
  destruct (String.eqb k "y"); [injection E as <-; cbn; intro H; injection H as <-; eexists; reflexivity|].
  destruct (String.eqb k "z"); [injection E as <-; cbn; discriminate|discriminate].
Qed.
Lemma pO_instance : forall seed w x a b c h, lookup (demo_rt seed) w x = Some (pO a b c h) -> dtype x = TRec 0 ->
  instance_of (demo_rt seed) ctxO (made_of declO) w x (pO a b c h) /\ values_in ints (made_of declO) (pO a b c h) /\
  hashable (demo_rt seed) hf_int (made_of declO) (pO a b c h).
Proof.
  intros seed w x a b c h HL HT. split; [|split].
  - repeat split; try assumption. intros k [<-|[<-|[<-|[]]]]; eexists; reflexivity.
  - intros k v [<-|[<-|[<-|[]]]] E; cbn in E; injection E as <-; eexists; reflexivity.
  - intros k v [<-|[<-|[<-|[]]]] E; cbn in E; injection E as <-; reflexivity.
Qed.

Example c32_case : forall seed a c h log,
  to_dict (demo_rt seed) ctxO (DRef (TRec 0) 0) no_args sel_empty (RState [] [pO a 0 c h] log) =
    (Ok [("x", DInt a); ("z", DInt c)], RState [] [pO a 0 c h] log) /\
  to_dict (demo_rt seed) ctxO (DRef (TRec 0) 0) (ExportArgs true SortDesc (BlackSet [0; 3]) ["z"]) sel_empty (RState [] [pO a 0 c h] log) =
    (Ok [("z", DInt c); ("x", DInt a)], RState [] [pO a 0 c h] log).
Proof. intros. split; reflexivity. Qed.

Definition wO : rstate := RState [] [pO 1 0 5 SNone; pO 1 0 5 SNone; pO 1 2 4 SNone] [].
Example c53_case : exists b w',
  record_eq (demo_rt 0) ctxO (DRef (TRec 0) 0) (DRef (TRec 0) 1) wO = (Ok b, w') /\ b = true /\
  fields_kept (demo_rt 0) wO w'.
Proof.
  destruct (pO_instance 0 wO (DRef (TRec 0) 0) 1 0 5 SNone eq_refl eq_refl) as (A1 & A2 & A3).
  destruct (pO_instance 0 wO (DRef (TRec 0) 1) 1 0 5 SNone eq_refl eq_refl) as (B1 & B2 & B3).
  destruct (c53_fieldwise (demo_rt 0) ctxO ints dlit_eq hf_int (made_of declO) wO _ _ _ _
              declO_made (ints_eq 0) ints_equivalence declO_defaults A1 B1 A2 B2) as (b & w' & H1 & H2 & H3).
  - intros _. split; [exact ints_contract|]. split; [assumption|]. split; [assumption|]. split; left; reflexivity.
  - exists b, w'. split; [assumption|]. split; [|assumption]. apply H2. intros k a a' _ EA EB. rewrite EA in EB. injection EB as <-.
    destruct ints_equivalence as (E1 & _). apply E1. cbn in EA.
    destruct (String.eqb k "x"), (String.eqb k "y"), (String.eqb k "z"); try discriminate; injection EA as <-; eexists; reflexivity.
Qed.
(** the field z is excluded from ordering *)
Example c57_case : forall seed,
  ordering_fields (made_of declO) = ["x"; "y"] /\
  compare (demo_rt seed) ctxO CLt (DRef (TRec 0) 0) (DRef (TRec 0) 2) wO = (Ok true, wO) /\
  compare (demo_rt seed) ctxO CGe (DRef (TRec 0) 0) (DRef (TRec 0) 2) wO = (Ok false, wO) /\
  (forall k, In k (ordering_fields (made_of declO)) -> ordered_domain (demo_rt seed) dlit_eq ltb_int ints).
Proof. intro seed. split; [reflexivity|]. split; [reflexivity|]. split; [reflexivity|]. intros k _. apply ints_ordered. Qed.
Definition ctxN (t : dty) : option (@cls dobj dty rstate) :=
  match t with TRec 0 => Some (made_of (rdecl 0 true false (Some false) SCheck [("x", (an TInt, NoDefault))] [] no_post)) | _ => None end.
Example c58_case : forall seed,
  let w := RState [] [Inst (TRec 0) [("x", DInt 1)] SNone] [] in
  compare (demo_rt seed) ctxN CLt (DRef (TRec 0) 0) (DRef (TRec 0) 0) w = (Raise (mkexc TypeError "cannot compare with non-ordered type"), w) /\
  compare (demo_rt seed) ctxO CLt (DRef (TRec 0) 0) (DInt 3) wO = (Raise (mkexc TypeError "not supported between instances"), wO).
Proof. intro seed. split; reflexivity. Qed.

Example c52_case : forall w', record_eq (demo_rt 0) ctxO (DRef (TRec 0) 0) (DRef (TRec 0) 1) wO = (Ok true, w') ->
  exists z, fst (record_hash (demo_rt 0) ctxO (DRef (TRec 0) 0) wO) = Ok z /\ record_hash (demo_rt 0) ctxO (DRef (TRec 0) 1) w' = (Ok z, w').
Proof.
  intros w' H.
  destruct (pO_instance 0 wO (DRef (TRec 0) 0) 1 0 5 SNone eq_refl eq_refl) as (A1 & A2 & A3).
  destruct (pO_instance 0 wO (DRef (TRec 0) 1) 1 0 5 SNone eq_refl eq_refl) as (B1 & B2 & B3).
  destruct (c52_equal_hash (demo_rt 0) ctxO ints dlit_eq hf_int (made_of declO) wO _ _ _ _ w'
              declO_made (ints_eq 0) ints_equivalence declO_defaults eq_refl ints_contract A1 B1 A2 B2 A3 B3
              (or_introl eq_refl) (or_introl eq_refl) H) as (z & Z1 & _ & _ & Z4).
  exists z. split; assumption.
Qed.
