(** Props_Mut.v -- property theorems: C135 to C138: containers that change, while they are filled and afterwards
    Each theorem is closed by the lemma of the same statement in Mut_main.v; the examples
    show that concrete, non-trivial cases meet the hypotheses. *)

From Verif Require Import Base Mutable Spec_Mutable.
From Verif Require Cont_main.
Open Scope string_scope.
Open Scope list_scope.

From Verif Require Import Mut_main.

(** C135: if coercers and validators change no containers, the fillers here do what those of
    Containers.v and Filler.v do: all elements are filled once, in order; the field holds the
    container itself if no element changed, and a new one of the filled elements otherwise. *)
Theorem c135_unchanged_partial : forall {obj W} (H : Heap obj W), lawful H -> forall (elt fk fv : obj -> M W obj) v w,
  (forall x w, unchanged H w (snd (elt x w))) -> (forall x w, unchanged H w (snd (fk x w))) -> (forall x w, unchanged H w (snd (fv x w))) ->
  (forall l n, seq H w v = Some l -> List.length l < n ->
     pass H n (fun x => ends (elt x)) v w 0 w = Some (Cont_main.all_filled (same H) elt (make_seq H v) v l w)) /\
  (forall l n, items H w v = Some l -> List.length l < n ->
     pass_map H n (fun x => ends (fk x)) (fun x => ends (fv x)) v w = Some (Cont_main.all_items_filled (same H) fk fv (make_map H v) v l w)).
Proof. exact (@c135_unchanged_partial_proof). Qed.
Print Assumptions c135_unchanged_partial.

(** C135: filling ends for values of any depth, if coercers and validators make no container
    longer; they may change containers otherwise, also those that are being filled. *)
Theorem c135_ends_partial : forall {obj W} (H : Heap obj W), lawful H -> forall F, uses (no_longer H) F ->
  forall x w, exists n r, forall m, n <= m -> run H m F x w = Some r.
Proof. exact (@c135_ends_partial_proof). Qed.
Print Assumptions c135_ends_partial.

(** C135 fails if a validator of the elements appends to the list: the construction never
    ends, whatever was in the list. *)
Theorem c135_append_refuted : forall l, l <> [] -> forall n,
  run mheap n (FSeq m_list (FLeaf m_append)) (MRef KList 0) (MState [l] []) = None.
Proof. exact (@c135_append_refuted_proof). Qed.
Print Assumptions c135_append_refuted.

(** C136: after filling, the value is as its annotation promises, to any depth and in the state
    in which it is stored, if coercers and validators change no containers (they may make new
    ones). *)
Theorem c136_types_partial : forall {obj W} (H : Heap obj W), lawful H -> keeps_items H ->
  forall F s, uses (unchanged H) F -> promises H F s ->
  forall n x w y w', run H n F x w = Some (Ok y, w') -> fits H s w' y.
Proof. exact (@c136_types_partial_proof). Qed.
Print Assumptions c136_types_partial.

(** C136 fails if a validator changes a list that is being filled: what it puts where elements
    were filled before is not filled. *)
Theorem c136_change_refuted : exists w n w' l,
  run mheap n (FSeq m_list (FLeaf m_replace)) (MRef KList 0) w = Some (Ok (MRef KList 0), w') /\
  promises mheap (FSeq m_list (FLeaf m_replace)) (ShSeq m_is_list (ShLeaf m_is_int)) /\
  fits mheap (ShSeq m_is_list (ShLeaf m_is_int)) w (MRef KList 0) /\
  seq mheap w' (MRef KList 0) = Some l /\ In (MStr 7) l /\
  ~ fits mheap (ShSeq m_is_list (ShLeaf m_is_int)) w' (MRef KList 0).
Proof. exact (@c136_change_refuted_proof). Qed.
Print Assumptions c136_change_refuted.

(** C137: a value keeps being as promised, whatever the program does, as long as it does not
    change the containers that can be reached from the value. *)
Theorem c137_later_partial : forall {obj W} (H : Heap obj W) s w w' x,
  (forall y l, reaches H w x y -> seq H w y = Some l -> seq H w' y = Some l) ->
  (forall y l, reaches H w x y -> items H w y = Some l -> items H w' y = Some l) ->
  fits H s w x -> fits H s w' x.
Proof. exact (@c137_later_partial_proof). Qed.
Print Assumptions c137_later_partial.

(** C137 fails for every list that is stored as it was given: appending to the list, or to the
    value of the field, puts anything into the field, also if the record is frozen. *)
Theorem c137_append_refuted : forall {obj W} (H : Heap obj W), lawful H -> forall f e Q s v l w n y w',
  uses (unchanged H) (FSeq f e) -> f v w = (Ok v, w) -> seq H w v = Some l ->
  run H n (FSeq f e) v w = Some (Ok y, w') ->
  (forall x m, In x l -> forall w1 z w2, run H m e x w1 = Some (Ok z, w2) -> z = x) ->
  y = v /\ forall w2 x, seq H w2 v = Some (l ++ [x]) -> ~ fits H s w2 x -> ~ fits H (ShSeq Q s) w2 y.
Proof. exact (@c137_append_refuted_proof). Qed.
Print Assumptions c137_append_refuted.

(** C138: what a field holds is the container that was given (or that a coercer made of it) if all
    its elements fill to themselves, and otherwise a container that did not exist before; if
    coercers and validators change no containers. *)
Theorem c138_stored : forall {obj W} (H : Heap obj W), lawful H -> forall f e n x w y w', uses (unchanged H) (FSeq f e) ->
  run H n (FSeq f e) x w = Some (Ok y, w') -> forall v w1 l, f x w = (Ok v, w1) -> seq H w1 v = Some l ->
  exists l' w2, in_turn (fun a w b w' => run H n e a w = Some (Ok b, w')) l w1 l' w2 /\ unchanged H w w2 /\
    ((l' = l /\ y = v /\ w' = w2) \/ (l' <> l /\ seq H w2 y = None /\ items H w2 y = None /\ seq H w' y = Some l')).
Proof. exact (@c138_stored_proof). Qed.
Print Assumptions c138_stored.

(** C138: likewise for mappings. *)
Theorem c138_stored_mapping : forall {obj W} (H : Heap obj W), lawful H -> forall f k e n x w y w', uses (unchanged H) (FMap f k e) ->
  run H n (FMap f k e) x w = Some (Ok y, w') -> forall v w1 l, f x w = (Ok v, w1) -> items H w1 v = Some l ->
  exists l' w2, in_turn (fun a w b w' => exists w3, run H n k (fst a) w = Some (Ok (fst b), w3) /\ run H n e (snd a) w3 = Some (Ok (snd b), w')) l w1 l' w2 /\
    ((l' = l /\ y = v /\ w' = w2) \/ (l' <> l /\ seq H w2 y = None /\ items H w2 y = None)).
Proof. exact (@c138_stored_mapping_proof). Qed.
Print Assumptions c138_stored_mapping.

(** C138 fails for containers inside: a list of lists that is made anew still holds those of the
    inner lists in which nothing changed, so changing them changes the record. *)
Theorem c138_inner_refuted : exists w n y w' l,
  run mheap n (FSeq m_list (FSeq m_list (FLeaf m_to_int))) (MRef KList 0) w = Some (Ok y, w') /\ seq mheap w y = None /\
  seq mheap w' y = Some l /\ exists z, In z l /\ seq mheap w z = Some [MInt 1] /\ exists w2, seq mheap w2 z = Some [MStr 9] /\
  fits mheap (ShSeq m_is_list (ShSeq m_is_list (ShLeaf m_is_int))) w' y /\ ~ fits mheap (ShSeq m_is_list (ShSeq m_is_list (ShLeaf m_is_int))) w2 y.
Proof. exact (@c138_inner_refuted_proof). Qed.
Print Assumptions c138_inner_refuted.

Lemma m_list_keeps : forall x w, snd (m_list x w) = w.
Proof. intros x w. destruct x as [|n|[] n]; try reflexivity. cbn. destruct (nth_error (m_seqs w) n); reflexivity. Qed.
Lemma m_to_int_keeps : forall x w, snd (m_to_int x w) = w.
Proof. intros x w. destruct x; reflexivity. Qed.
Definition m_nested : filling mobj mstate := FSeq m_list (FSeq m_list (FLeaf m_to_int)).
Example m_uses : uses (unchanged mheap) m_nested.
Proof. split; [|split]; intros x w; rewrite ?m_list_keeps, ?m_to_int_keeps; apply unchanged_refl. Qed.
Example m_promises : promises mheap m_nested (ShSeq m_is_list (ShSeq m_is_list (ShLeaf m_is_int))).
Proof.
  assert (L : forall x w y w', m_list x w = (Ok y, w') -> m_is_list y /\ exists l, mseq w' y = Some l).
  { intros x w y w' E. destruct x as [|n|[] n]; try (cbn in E; discriminate). cbn in E. destruct (nth_error (m_seqs w) n) eqn:EN; [|discriminate]. injection E as <- <-. split; [eexists; reflexivity|eexists; exact EN]. }
  assert (MK : forall v l w y w', m_is_list v -> make_seq mheap v l w = (Ok y, w') -> m_is_list y) by (intros v l w y w' [n ->] E; injection E as <- <-; eexists; reflexivity).
  split; [exact L|]. split; [exact MK|]. split; [exact L|]. split; [exact MK|]. intros x w y w' E. destruct x; cbn in E; try discriminate; injection E as <- <-; eexists; reflexivity.
Qed.
Example c136_case : exists w', run mheap 4 m_nested (MRef KList 0) (MState [[MRef KList 1; MRef KList 2]; [MInt 1]; [MStr 5]] []) = Some (Ok (MRef KList 4), w') /\
  fits mheap (ShSeq m_is_list (ShSeq m_is_list (ShLeaf m_is_int))) w' (MRef KList 4).
Proof. eexists. split; [reflexivity|]. eapply (c136_types_partial mheap mheap_lawful mheap_items m_nested _ m_uses m_promises 4 (MRef KList 0) (MState [[MRef KList 1; MRef KList 2]; [MInt 1]; [MStr 5]] [])). reflexivity. Qed.
(** replacing elements does not make lists longer, so filling ends; a deque raises *)
Example c135_ends_case : uses (no_longer mheap) (FSeq m_list (FLeaf m_replace)).
Proof.
  split; intros x w; [rewrite m_list_keeps; apply no_longer_refl|]. destruct x as [[|[|[|n]]]| |]; try apply no_longer_refl. cbn.
  split; cbn; [|eauto]. intros v l E. assert (G : forall n, nth_error (m_seqs w) n = Some l -> exists l', nth_error (put_at 0 (put_at 0 (MStr 7) (nth 0 (m_seqs w) [])) (m_seqs w)) n = Some l' /\ List.length l' <= List.length l).
  { intros n EN. destruct (m_seqs w) as [|l0 r]; [destruct n; discriminate|]. destruct n as [|n]; cbn in EN |- *; [injection EN as <-; eexists; split; [reflexivity|destruct l0; cbn; lia]|eauto]. }
  destruct v as [|n|[] n]; cbn in E |- *; try discriminate; apply G; exact E.
Qed.
Example c135_deque_case : fst (match pass mheap 9 (fun x => ends (m_replace x)) (MRef KDeque 0) (MState [[MInt 1; MInt 2; MInt 3]] []) 0 (MState [[MInt 1; MInt 2; MInt 3]] []) with Some r => r | None => (Raise mutated, MState [] []) end) = Raise mutated.
Proof. reflexivity. Qed.
Example c137_case : exists w', run mheap 9 (FSeq m_list (FLeaf m_int)) (MRef KList 0) (MState [[MInt 1; MInt 2]] []) = Some (Ok (MRef KList 0), w') /\
  ~ fits mheap (ShSeq m_is_list (ShLeaf m_is_int)) (MState [[MInt 1; MInt 2; MStr 3]] []) (MRef KList 0).
Proof.
  eexists. split; [reflexivity|].
  apply (c137_append_refuted mheap mheap_lawful m_list (FLeaf m_int) m_is_list (ShLeaf m_is_int) (MRef KList 0) [MInt 1; MInt 2] (MState [[MInt 1; MInt 2]] []) 9 (MRef KList 0) (MState [[MInt 1; MInt 2]] [])) with (x := MStr 3); try reflexivity.
  - split; intros x w; [rewrite m_list_keeps; apply unchanged_refl|]. destruct x; apply unchanged_refl.
  - intros x m _ w1 z w2 E. cbn in E. unfold ends in E. destruct x; cbn in E; try discriminate. injection E as <- _. reflexivity.
  - intros [n X]. discriminate.
Qed.
Example c138_mapping_case : exists w', run mheap 4 (FMap (fun x => ret x) (FLeaf m_int) (FLeaf m_to_int)) (MRef KDict 0) (MState [] [[(MInt 1, MStr 2)]]) = Some (Ok (MRef KDict 1), w') /\
  items mheap w' (MRef KDict 1) = Some [(MInt 1, MInt 2)].
Proof. eexists. split; reflexivity. Qed.
