(** Props_Nested.v -- property theorems: == and hash of records that contain records
    Each theorem is closed by the lemma of the same statement in Nested_main.v; the examples
    show that concrete, non-trivial cases meet the hypotheses. *)

From Verif Require Import Base Deep Spec_Deep Spec_Graph Nest.
Open Scope string_scope.
Open Scope list_scope.

From Verif Require Import Nested_main.

(** C131, ==: whatever was hashed before, an answer of x == y is right, for all objects, also in
    cycles, and for every depth of the stack; slots for hashes that are filled stay as they are
    and hold the hashes of their records, also if the call fails. *)
Theorem c131_equal : forall objects atom_eq atom_hash tuple_hash frozen default,
  well_formed objects -> lawful_atoms atom_eq atom_hash ->
  forall fuel x y ks,
  right_caches objects atom_eq atom_hash tuple_hash frozen default ks ->
  let r := deep_equal objects atom_eq atom_hash tuple_hash frozen default fuel x y ks in
  (forall b, fst r = Gives b -> (b = true <-> equals objects atom_eq x y)) /\
  right_caches objects atom_eq atom_hash tuple_hash frozen default (snd r) /\ caches_kept ks (snd r).
Proof. exact (@c131_equal_proof). Qed.
Print Assumptions c131_equal.

(** C131, hash: likewise, an answer of hash(x) is made of the content of x alone. *)
Theorem c131_hash : forall objects atom_eq atom_hash tuple_hash frozen default,
  well_formed objects -> lawful_atoms atom_eq atom_hash ->
  forall fuel x ks,
  right_caches objects atom_eq atom_hash tuple_hash frozen default ks ->
  let r := deep_hash objects atom_eq atom_hash tuple_hash frozen default fuel x ks in
  (forall h, fst r = Gives h -> hashes objects atom_eq atom_hash tuple_hash frozen default x h) /\
  right_caches objects atom_eq atom_hash tuple_hash frozen default (snd r) /\ caches_kept ks (snd r).
Proof. exact (@c131_hash_proof). Qed.
Print Assumptions c131_hash.

(** C131, all histories: after any calls of == and hash, each of which may have failed, x == y
    answers only what the contents say, and objects that are equal, or one and the same, have
    the same hash, whenever each of them is asked for. *)
Theorem c131_history : forall objects atom_eq atom_hash tuple_hash frozen default,
  well_formed objects -> lawful_atoms atom_eq atom_hash ->
  forall qs qs' fuel fuel' x y,
  let after qs := fold_left (fun ks q => ask objects atom_eq atom_hash tuple_hash frozen default q ks) qs (fun _ => None) in
  let eq ks := fst (deep_equal objects atom_eq atom_hash tuple_hash frozen default fuel x y ks) in
  let hash fuel x ks := fst (deep_hash objects atom_eq atom_hash tuple_hash frozen default fuel x ks) in
  (forall b, eq (after qs) = Gives b -> (b = true <-> equals objects atom_eq x y)) /\
  (forall h h', x = y \/ equals objects atom_eq x y -> hash fuel x (after qs) = Gives h -> hash fuel' y (after qs') = Gives h' -> h = h').
Proof. exact (@c131_history_proof). Qed.
Print Assumptions c131_history.

(** C131, frozen classes: freezing classes changes no answer of ==. *)
Theorem c131_frozen : forall objects atom_eq atom_hash tuple_hash frozen frozen' default,
  well_formed objects -> lawful_atoms atom_eq atom_hash ->
  forall fuel fuel' x y ks ks' b b',
  right_caches objects atom_eq atom_hash tuple_hash frozen default ks ->
  right_caches objects atom_eq atom_hash tuple_hash frozen' default ks' ->
  fst (deep_equal objects atom_eq atom_hash tuple_hash frozen default fuel x y ks) = Gives b ->
  fst (deep_equal objects atom_eq atom_hash tuple_hash frozen' default fuel' x y ks') = Gives b' -> b = b'.
Proof. exact (@c131_frozen_proof). Qed.
Print Assumptions c131_frozen.

(** C131, the relation: == of such objects is symmetric and transitive if == of the others is. *)
Theorem c131_relation : forall objects atom_eq,
  well_formed objects ->
  (forall x y, atom_eq x y = true -> atom_eq y x = true) ->
  (forall x y z, atom_eq x y = true -> atom_eq y z = true -> atom_eq x z = true) ->
  (forall x y, equals objects atom_eq x y -> equals objects atom_eq y x) /\
  (forall x y z, equals objects atom_eq x y -> equals objects atom_eq y z -> equals objects atom_eq x z).
Proof. exact (@c131_relation_proof). Qed.
Print Assumptions c131_relation.

(** C131, answers: without cycles, over fields or over defaults, and if frozen records hold
    only objects that have a hash, == answers for all objects and hash for all that have one,
    if the stack is deep enough: a bound is given by the depth of the objects alone. *)
Theorem c131_answers : forall objects atom_eq atom_hash tuple_hash frozen default rank,
  no_cycle objects rank -> no_cycle_of_defaults objects default rank ->
  (forall x c fs, nth_error objects x = Some (NRec c fs) -> frozen c = true -> hashable objects atom_hash frozen x) ->
  forall fuel ks,
  (forall x y, 2 * rank x + 2 <= fuel -> 2 * rank y + 2 <= fuel ->
     exists b, fst (deep_equal objects atom_eq atom_hash tuple_hash frozen default fuel x y ks) = Gives b) /\
  (forall x, hashable objects atom_hash frozen x -> 2 * rank x + 1 <= fuel ->
     exists h, fst (deep_hash objects atom_eq atom_hash tuple_hash frozen default fuel x ks) = Gives h).
Proof. exact (@c131_answers_proof). Qed.
Print Assumptions c131_answers.

(** C131, failures: without cycles the only failure, if the stack is deep enough, is the
    TypeError of an object without hash.  It is what hash gives for every object that has none,
    and == of two records of one frozen class if the first has none. *)
Theorem c131_failures : forall objects atom_eq atom_hash tuple_hash frozen default rank,
  no_cycle objects rank -> no_cycle_of_defaults objects default rank ->
  forall fuel ks,
  (forall x y, 2 * rank x + 2 <= fuel -> 2 * rank y + 2 <= fuel ->
     fst (deep_equal objects atom_eq atom_hash tuple_hash frozen default fuel x y ks) <> TooDeep) /\
  (forall x, 2 * rank x + 1 <= fuel ->
     fst (deep_hash objects atom_eq atom_hash tuple_hash frozen default fuel x ks) <> TooDeep) /\
  (well_formed objects -> lawful_atoms atom_eq atom_hash -> right_caches objects atom_eq atom_hash tuple_hash frozen default ks ->
   forall x, ~ (exists h, hashes objects atom_eq atom_hash tuple_hash frozen default x h) ->
     (2 * rank x + 1 <= fuel -> fst (deep_hash objects atom_eq atom_hash tuple_hash frozen default fuel x ks) = Unhashable) /\
     (forall y c fs gs, nth_error objects x = Some (NRec c fs) -> nth_error objects y = Some (NRec c gs) -> frozen c = true -> 2 * rank x + 2 <= fuel ->
        fst (deep_equal objects atom_eq atom_hash tuple_hash frozen default fuel x y ks) = Unhashable)).
Proof. exact (@c131_failures_proof). Qed.
Print Assumptions c131_failures.

(** Two lines, each with two points.  The class of points (0) is frozen, with default atom 0
    for "y"; so is that of lines (1), whose "to" has the point 4 as default.  Objects 0-2 are
    atoms; 1 and 2 are equal. *)
Definition case_objects : list node :=
  [ NAtom; NAtom; NAtom;
    NRec 0 [("x", 1); ("y", 0)];      (* 3 *)
    NRec 0 [("x", 2); ("y", 0)];      (* 4: equals 3 *)
    NRec 0 [("x", 0); ("y", 1)];      (* 5 *)
    NTuple [3; 5];                    (* 6 *)
    NTuple [4; 5];                    (* 7: equals 6 *)
    NRec 1 [("from", 6); ("to", 3)];  (* 8 *)
    NRec 1 [("from", 7); ("to", 4)];  (* 9: equals 8 *)
    NRec 1 [("from", 7); ("to", 5)]   (* 10 *) ].
Definition case_eq (x y : nat) : bool := Nat.eqb (Nat.min x 1) (Nat.min y 1).
Definition case_hash (x : nat) : option Z := Some (Z.of_nat (Nat.min x 1)).
Definition case_tuple (hs : list Z) : Z := fold_left (fun a h => 31 * a + h)%Z hs 7%Z.
Definition case_default (c : nat) (k : string) : option nat :=
  if (Nat.eqb c 0 && String.eqb k "y")%bool then Some 0 else if (Nat.eqb c 1 && String.eqb k "to")%bool then Some 4 else None.
Definition case_call := deep_equal case_objects case_eq case_hash case_tuple (fun _ => true) case_default 12.
Example c131_lawful : lawful_atoms case_eq case_hash.
Proof.
  unfold lawful_atoms, case_eq, case_hash. repeat split; intros; repeat match goal with H : Nat.eqb _ _ = true |- _ => apply Nat.eqb_eq in H end; try apply Nat.eqb_eq; congruence.
Qed.
Example c131_well_formed : well_formed case_objects.
Proof.
  split.
  - intros x y c fs gs H H'. do 11 (destruct x as [|x]; [cbn in H; try discriminate; injection H as <- <-;
      do 11 (destruct y as [|y]; [cbn in H'; try discriminate; injection H' as <-; reflexivity|]); destruct y; discriminate|]).
    destruct x; discriminate.
  - intros x kvs H. do 11 (destruct x as [|x]; [discriminate|]). destruct x; discriminate.
Qed.
Example c131_same : fst (case_call 8 9 (fun _ => None)) = Gives true.
Proof. reflexivity. Qed.
Example c131_different : fst (case_call 8 10 (fun _ => None)) = Gives false.
Proof. reflexivity. Qed.
(** comparing the lines has filled the slots of the points *)
Example c131_slots : let ks := snd (case_call 8 9 (fun _ => None)) in ks 3 = Some 218%Z /\ ks 4 = ks 3 /\ ks 8 = ks 9 /\ ks 10 = None.
Proof. repeat split. Qed.
(** a list in a frozen record: there is no answer, TypeError *)
Example c131_list : fst (deep_equal [NRec 0 [("x", 1)]; NList []] case_eq case_hash case_tuple (fun _ => true) case_default 12 0 0 (fun _ => None)) = Unhashable.
Proof. reflexivity. Qed.
(** such a case: the record 0 has no hash, as the list 1 has none *)
Definition bad_objects : list node := [NRec 0 [("x", 1)]; NList []].
Example c131_bad_rank : no_cycle bad_objects (fun x => 1 - x) /\ no_cycle_of_defaults bad_objects (fun _ _ => None) (fun x => 1 - x).
Proof.
  split; [|intros x c fs k d E H; discriminate].
  intros x y (n & E & H). destruct x as [|[|x]]; cbn in E; [| |destruct x; discriminate]; injection E as <-; cbn in H; [destruct H as [<-|[]]; cbn; lia|destruct H].
Qed.
Example c131_bad_hash : ~ exists h, hashes bad_objects case_eq case_hash case_tuple (fun _ => true) (fun _ _ => None) 0 h.
Proof.
  intros [h H]. inversion H as [x h' O|x xs hs E|x c fs vs hs E EF ND HS]; subst; try discriminate; [destruct O; discriminate|].
  injection E as <- <-. inversion ND; subst; try discriminate.
  all: inversion HS; subst; match goal with H : hashes _ _ _ _ _ _ 1 _ |- _ => inversion H as [? ? [|]| |]; discriminate end.
Qed.
(** the objects of the case are not in cycles, and have hashes *)
Definition case_rank (x : nat) : nat := nth x [0; 0; 0; 1; 1; 1; 2; 2; 3; 3; 3] 0.
Example c131_no_cycle : no_cycle case_objects case_rank /\ no_cycle_of_defaults case_objects case_default case_rank.
Proof.
  split.
  - intros x y (n & E & H). do 11 (destruct x as [|x]; [cbn in E; injection E as <-; cbn in H; repeat (destruct H as [<-|H]; [cbn; lia|]); destruct H|]).
    destruct x; discriminate.
  - intros x c fs k d E H. unfold case_default in H.
    do 11 (destruct x as [|x]; [cbn in E; try discriminate; injection E as <- <-; cbn in H; destruct (String.eqb k _); try discriminate; injection H as <-; cbn; lia|]).
    destruct x; discriminate.
Qed.
Example c131_hashable x c fs : nth_error case_objects x = Some (NRec c fs) -> hashable case_objects case_hash (fun _ => true) x.
Proof.
  intros E.
  assert (A : forall a, a < 3 -> hashable case_objects case_hash (fun _ => true) a)
    by (intros a L; eapply hashable_other; [right; destruct a as [|[|[|?]]]; [reflexivity..|lia]|reflexivity]).
  assert (P : forall p, p = 3 \/ p = 4 \/ p = 5 -> hashable case_objects case_hash (fun _ => true) p)
    by (intros p [->|[->| ->]]; eapply hashable_record; try reflexivity; cbn; repeat (apply Forall_cons; [apply A; lia|]); apply Forall_nil).
  assert (T : forall t, t = 6 \/ t = 7 -> hashable case_objects case_hash (fun _ => true) t)
    by (intros t [->| ->]; eapply hashable_tuple; try reflexivity; cbn; repeat (apply Forall_cons; [apply P; lia|]); apply Forall_nil).
  do 11 (destruct x as [|x]; [first [discriminate|apply P; lia|
    eapply hashable_record; [reflexivity..|cbn; apply Forall_cons; [apply T; lia|apply Forall_cons; [apply P; lia|apply Forall_nil]]]]|]).
  destruct x; discriminate.
Qed.
