(** Props_Cycles.v -- property theorems: printing and comparing records that refer to each other
    Each theorem is closed by the lemma of the same statement in Cycles_main.v; the examples
    show that concrete, non-trivial cases meet the hypotheses. *)

From Verif Require Import Base Deep Spec_Deep Spec_Graph Graph.
Open Scope string_scope.
Open Scope list_scope.

From Verif Require Import Cycles_main.

(** C129: printing ends for all objects, whatever lists, tuples and dicts contain each other or
    themselves, if no record refers to itself over records only. *)
Theorem c129_repr_partial : forall objects text class_name rank x,
  no_chain_of_records objects rank ->
  exists enough s, forall fuel, enough <= fuel -> show objects text class_name fuel [] x = Some s.
Proof. exact (@c129_repr_partial_proof). Qed.
Print Assumptions c129_repr_partial.

(** C129, exactly: printing x ends if and only if x is and reaches no record that refers to
    itself over records only. *)
Theorem c129_repr_exact : forall objects text class_name x,
  (exists fuel s, show objects text class_name fuel [] x = Some s) <->
  (forall r, r = x \/ reaches objects x r -> ~ over_records objects r r).
Proof. exact (@c129_repr_exact_proof). Qed.
Print Assumptions c129_repr_exact.

(** C129, what is printed: each object in the way of its kind, with dots for a container within
    itself. *)
Theorem c129_repr_text : forall objects text class_name x s,
  (exists fuel, show objects text class_name fuel [] x = Some s) <-> prints objects text class_name [] x s.
Proof. exact (@c129_repr_text_proof). Qed.
Print Assumptions c129_repr_text.

(** ... but records that refer to each other over records only cannot be printed: a record that
    is its own field, two records that are fields of each other, and so on. *)
Theorem c129_repr_refuted : forall objects text class_name (group : nat -> Prop),
  (forall r, group r -> exists c fs b, nth_error objects r = Some (NRec c fs) /\ In b (map snd fs) /\ group b) ->
  forall r, group r -> forall fuel, show objects text class_name fuel [] r = None.
Proof. exact (@c129_repr_refuted_proof). Qed.
Print Assumptions c129_repr_refuted.

(** C129: without cycles, comparing ends and says whether the objects are equal. *)
Theorem c129_equal_partial : forall objects atom_eq rank x y fuel,
  well_formed objects -> no_cycle objects rank -> rank x < fuel -> rank y < fuel ->
  exists b, equal objects atom_eq fuel x y = Some b /\ (b = true <-> equals objects atom_eq x y).
Proof. exact (@c129_equal_partial_proof). Qed.
Print Assumptions c129_equal_partial.

(** ... and if comparing ends, also with cycles, the answer is right. *)
Theorem c129_equal_right : forall objects atom_eq fuel x y b,
  well_formed objects -> equal objects atom_eq fuel x y = Some b -> (b = true <-> equals objects atom_eq x y).
Proof. exact (@c129_equal_right_proof). Qed.
Print Assumptions c129_equal_right.

(** ... and every object equals itself, also in cycles of lists, tuples and dicts, if no record
    refers to itself over records only and == is reflexive for all other objects, ... *)
Theorem c129_itself_partial : forall objects atom_eq rank x fuel,
  well_formed objects -> no_chain_of_records objects rank -> (forall a, atom_eq a a = true) -> S (rank x) < fuel ->
  equal objects atom_eq fuel x x = Some true.
Proof. exact (@c129_itself_partial_proof). Qed.
Print Assumptions c129_itself_partial.

(** ... but a record whose first field is the record itself cannot be compared with itself,
    unlike a list that contains itself, nor with another such record. *)
Theorem c129_itself_refuted : forall objects atom_eq x y c j k fs gs,
  nth_error objects x = Some (NRec c ((j, x) :: fs)) -> nth_error objects y = Some (NRec c ((k, y) :: gs)) ->
  forall fuel, equal objects atom_eq fuel x x = None /\ equal objects atom_eq fuel x y = None.
Proof. exact (@c129_itself_refuted_proof). Qed.
Print Assumptions c129_itself_refuted.

(** 0: a record with a list (1) that contains the record, itself and a dict (2) that contains
    itself; 3: another record, a field of 4; 5: a record that is its own field *)
Definition knot : list node :=
  [NRec 0 [("x", 1)]; NList [0; 1; 2]; NDict [("k", 2)]; NRec 0 [("x", 9)]; NRec 1 [("r", 3); ("s", 3)]; NRec 1 [("r", 5); ("s", 9)]].
Example c129_cases :
  let show := show knot (fun _ => "7") (fun c => if Nat.eqb c 0 then "A" else "B") in
  let equal := equal knot Nat.eqb in
  show 9 [] 0 = Some "A(x=[A(x=[...]), [...], {'k': {...}}])" /\
  show 9 [] 4 = Some "B(r=A(x=7), s=A(x=7))" /\
  equal 9 0 0 = Some true /\ equal 9 0 3 = Some false /\ equal 9 1 1 = Some true /\ equal 9 4 4 = Some true /\
  (forall fuel, show fuel [] 5 = None) /\ (forall fuel, equal fuel 5 5 = None) /\
  well_formed knot /\ no_chain_of_records (firstn 5 knot) (fun x => x) /\ no_cycle [NRec 0 []; NList [0]; NTuple [1; 0]] (fun x => x).
Proof.
  cbv zeta. do 6 (split; [reflexivity|]). split; [|split; [|split; [|split]]].
  - apply (c129_repr_refuted knot _ _ (fun r => r = 5)); [|reflexivity]. intros r ->. exists 1, [("r", 5); ("s", 9)], 5. cbn. auto.
  - intros fuel. eapply (c129_itself_refuted knot Nat.eqb 5 5 1 "r" "r"); reflexivity.
  - split.
    + intros x y c fs gs. do 6 (destruct x as [|x]; [do 6 (destruct y as [|y]; [cbn; intros E1 E2; inversion E1; inversion E2; subst; try discriminate; reflexivity|]); destruct y; cbn; intros; congruence|]). destruct x; cbn; intros; congruence.
    + intros x kvs. do 6 (destruct x as [|x]; [cbn; intros E; try discriminate; injection E as <-; repeat constructor; auto|]). destruct x; cbn; intros; congruence.
  - intros x y (c & fs & Hx) (d & gs & Hy) (n & Hn & Hin).
    do 5 (destruct x as [|x]; [cbn in Hx, Hn; injection Hn as <-; try discriminate; cbn in Hin;
      repeat (destruct Hin as [<-|Hin]; [cbn in Hy; try discriminate; try lia|]); destruct Hin|]).
    destruct x; cbn in Hx; discriminate.
  - intros x y (n & Hn & Hin). do 3 (destruct x as [|x]; [cbn in Hn; injection Hn as <-; cbn in Hin;
      repeat (destruct Hin as [<-|Hin]; [lia|]); destruct Hin|]). destruct x; cbn in Hn; discriminate.
Qed.
