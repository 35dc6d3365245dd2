(** Shuffle_main.v -- proofs of the properties stated in Props_Shuffle.v: the edits of a Select in another order (records/select.py:42-145) *)

From Verif Require Import Base Dict_proofs Py Select Spec_Select Select_proofs Select_proofs2 Select_main Spec_Edits Filler Classes Runtime Record Spec_Record Spec_Seeds Spec_Keywords Demo DemoRt DemoCls.
From Verif Require Twice_main Reorder_main Keywords_main Export_main Inst_proofs Factories_main.
Open Scope string_scope.
Open Scope list_scope.

Section Shuffle.
Context {A : Type}.
Notation fmap := (fmap A).
Notation edit := (edit A).
Notation verdict := (verdict A).

Definition vsame (v v' : verdict) : Prop :=
  match v, v' with Done a, Done b => forall k, a k = b k | Done _, _ => False | _, Done _ => False | _, _ => True end.
Lemma vsame_refl : forall v, vsame v v.
Proof. destruct v; cbn; auto. Qed.
Lemma vsame_trans : forall a b c, vsame a b -> vsame b c -> vsame a c.
Proof. intros [a|k|k] [b|j|j] [c|i|i]; cbn; intros H1 H2; try tauto. intros x. rewrite H1. apply H2. Qed.
Lemma edits_same : forall l (m m' : fmap), (forall k, m k = m' k) -> vsame (edits l m) (edits l m').
Proof.
  induction l as [|e r IH]; intros m m' H; [exact H|]. assert (PUT : forall k v j, fput k v m j = fput k v m' j) by (intros k v j; unfold fput; rewrite H; reflexivity).
  assert (PUT2 : forall k v o j, fput k v (fput o None m) j = fput k v (fput o None m') j) by (intros k v o j; unfold fput; rewrite H; reflexivity).
  cbn. destruct e; cbn; rewrite <- ?H; repeat match goal with |- context [match m ?k with _ => _ end] => destruct (m k) end; try exact I; apply IH; auto.
Qed.
Lemma edits_then : forall l l' r r' (m m' : fmap), vsame (edits l m) (edits l' m') -> (forall a b : fmap, (forall k, a k = b k) -> vsame (edits r a) (edits r' b)) ->
  vsame (edits (l ++ r) m) (edits (l' ++ r') m').
Proof. intros l l' r r' m m' H K. rewrite !Twice_main.edits_app. destruct (edits l m), (edits l' m'); cbn in *; try tauto. apply K. exact H. Qed.

Definition swaps (e e' : edit) : Prop := forall m, vsame (edits [e; e'] m) (edits [e'; e] m).
Lemma shuffle : forall B (f : B -> edit) l l', Permutation l l' -> (forall p q, In p l -> In q l -> swaps (f p) (f q)) ->
  forall m m' : fmap, (forall k, m k = m' k) -> vsame (edits (map f l) m) (edits (map f l') m').
Proof.
  intros B f l l' HP. induction HP as [|x l l' HP IH|x y l|l1 l2 l3 H1 IH1 H2 IH2]; intros HS m m' HM.
  - exact HM.
  - apply (edits_then [f x] [f x] (map f l) (map f l')); [apply edits_same; exact HM|]. intros a b HAB. apply IH; [|exact HAB]. intros p q HI HJ. apply HS; right; assumption.
  - apply (edits_then [f y; f x] [f x; f y] (map f l) (map f l)); [|intros a b HAB; apply edits_same; exact HAB].
    apply (vsame_trans _ (edits [f x; f y] m)); [apply HS; cbn; auto|apply edits_same; exact HM].
  - apply (vsame_trans _ (edits (map f l2) m)); [apply IH1; [exact HS|reflexivity]|]. apply IH2; [|exact HM].
    intros p q HI HJ. apply HS; apply (Permutation_in _ (Permutation_sym H1)); assumption.
Qed.

Ltac names := repeat match goal with
  | |- context [String.eqb ?a ?a] => rewrite String.eqb_refl
  | H : ?a <> ?b |- context [String.eqb ?a ?b] => rewrite (proj2 (String.eqb_neq a b) H)
  | H : ?a <> ?b |- context [String.eqb ?b ?a] => rewrite (proj2 (String.eqb_neq b a) (not_eq_sym H))
  end.
Ltac finish := try exact I; try reflexivity; try (let j := fresh in intros j; unfold fput; repeat match goal with |- context [String.eqb j ?k] => let E := fresh in destruct (String.eqb j k) eqn:E; [apply String.eqb_eq in E; subst j; names|] end; congruence).
Ltac steps m := cbn; unfold fput at 1; repeat (names; match goal with
  | |- context [match m ?k with _ => _ end] => let E := fresh in destruct (m k) eqn:E
  | |- context [match fput ?k ?v ?n ?j with _ => _ end] => unfold fput at 1; cbn
  end); finish.

Lemma remove_swaps : forall k k', swaps (Remove k) (Remove k').
Proof.
  intros k k' m. destruct (string_dec k k') as [<-|N]; [apply vsame_refl|]. cbn.
  destruct (m k) eqn:E, (m k') eqn:E'; cbn; unfold fput; names; rewrite ?E, ?E'; finish.
Qed.
Lemma mremove_swaps : forall k k', swaps (MaybeRemove k) (MaybeRemove k').
Proof. intros k k' m j. unfold fput. destruct (String.eqb j k), (String.eqb j k'); reflexivity. Qed.
Lemma add_swaps : forall k v k' v', swaps (Add k v) (Add k' v').
Proof.
  intros k v k' v' m. cbn. destruct (string_dec k k') as [<-|N].
  - destruct (m k) eqn:E; cbn; unfold fput; names; exact I.
  - destruct (m k) eqn:E, (m k') eqn:E'; cbn; unfold fput; names; rewrite ?E, ?E'; finish.
Qed.
Lemma madd_swaps : forall k v k' v', (k = k' -> v = v') -> swaps (MaybeAdd k v) (MaybeAdd k' v').
Proof.
  intros k v k' v' HV m. destruct (string_dec k k') as [<-|N]; [rewrite (HV eq_refl); apply vsame_refl|]. cbn.
  destruct (m k) eqn:E, (m k') eqn:E'; cbn; unfold fput; names; rewrite ?E, ?E'; finish.
Qed.
Lemma rename_swaps : forall o n o' n', o <> n -> o' <> n' -> o <> n' -> o' <> n -> swaps (Rename o n) (Rename o' n').
Proof.
  intros o n o' n' N1 N2 N3 N4 m. cbn. destruct (string_dec o o') as [<-|NO], (string_dec n n') as [<-|NN]; [apply vsame_refl| | |];
  destruct (m n) eqn:E1; try destruct (m n') eqn:E2; destruct (m o) eqn:E3; try destruct (m o') eqn:E4;
    cbn; unfold fput; names; rewrite ?E1, ?E2, ?E3, ?E4; cbn; finish.
Qed.
Lemma mrename_swaps : forall o n o' n', o <> n -> o' <> n' -> o <> n' -> o' <> n -> (o = o' -> n = n') -> swaps (MaybeRename o n) (MaybeRename o' n').
Proof.
  intros o n o' n' N1 N2 N3 N4 HV m. cbn. destruct (string_dec o o') as [<-|NO]; [rewrite (HV eq_refl); apply vsame_refl|].
  destruct (string_dec n n') as [<-|NN];
  destruct (m n) eqn:E1; try destruct (m n') eqn:E2; destruct (m o) eqn:E3; try destruct (m o') eqn:E4;
    cbn; unfold fput; names; rewrite ?E1, ?E2, ?E3, ?E4; cbn; names; rewrite ?E1, ?E2, ?E3, ?E4; finish.
Qed.
Lemma once : forall B (l : list (string * B)) p q, NoDup (map fst l) -> In p l -> In q l -> fst p = fst q -> snd p = snd q.
Proof.
  intros B l p q. induction l as [|x r IH]; intros ND HI HJ E; [destruct HI|]. cbn in ND. inversion ND as [|? ? N ND']; subst.
  destruct HI as [->|HI], HJ as [->|HJ]; [reflexivity| | |auto].
  - exfalso. apply N. rewrite E. apply in_map. exact HJ.
  - exfalso. apply N. rewrite <- E. apply in_map. exact HI.
Qed.

Lemma shuffled_edits : forall s s' : sel A, shuffled s s' -> unchained (elements (s_ren s)) -> unchained (elements (s_mren s)) -> chosen_once s ->
  forall m m' : fmap, (forall k, m k = m' k) -> vsame (edits (documented_edits s) m) (edits (documented_edits s') m').
Proof.
  intros s s' (P1 & P2 & P3 & P4 & P5 & P6) U1 U2 [O1 O2] m m' HM. unfold documented_edits.
  assert (U : forall l (p q : string * string), unchained l -> In p l -> In q l -> fst p <> snd q).
  { intros l p q HU HI HJ E. apply (HU (fst p)); [apply in_map; exact HI|]. rewrite E. apply in_map. exact HJ. }
  apply edits_then; [apply shuffle; [exact P1| |exact HM]; intros; apply remove_swaps|]. clear m m' HM. intros m m' HM.
  apply edits_then; [apply shuffle; [exact P2| |exact HM]; intros; apply mremove_swaps|]. clear m m' HM. intros m m' HM.
  apply edits_then; [apply shuffle; [exact P3| |exact HM]; intros p q HI HJ; apply rename_swaps; apply (U _ _ _ U1); assumption|]. clear m m' HM. intros m m' HM.
  apply edits_then; [apply shuffle; [exact P4| |exact HM]; intros p q HI HJ; apply mrename_swaps; try (apply (U _ _ _ U2); assumption); apply (once _ _ p q O1 HI HJ)|]. clear m m' HM. intros m m' HM.
  apply edits_then; [apply shuffle; [exact P5| |exact HM]; intros; apply add_swaps|]. clear m m' HM. intros m m' HM.
  apply shuffle; [exact P6| |exact HM]. intros p q HI HJ. apply madd_swaps. apply (once _ _ p q O2 HI HJ).
Qed.
End Shuffle.

Lemma c176_order_proof : forall (A : Type) (s s' : sel A) (d : dict A), reachable s -> reachable s' -> dict_ok d ->
  shuffled s s' -> unchained (elements (s_ren s)) -> unchained (elements (s_mren s)) -> chosen_once s ->
  match sel_apply s d, sel_apply s' d with
  | Ok d1, Ok d2 => Permutation d1 d2 /\ forall k, dget k d1 = dget k d2
  | Raise _, Raise _ => True
  | _, _ => False
  end.
Proof.
  intros A s s' d HS HS' HD HSH U1 U2 HO. pose proof (c42_select_refines_spec_proof A s d HS HD) as C. pose proof (c42_select_refines_spec_proof A s' d HS' HD) as C'.
  pose proof (shuffled_edits s s' HSH U1 U2 HO _ _ (fun k => eq_refl (dget k d))) as V.
  destruct (edits (documented_edits s) (fun k => dget k d)) as [m| |], (edits (documented_edits s') (fun k => dget k d)) as [m'| |]; cbn in V; try contradiction;
    try (rewrite C, C'; exact I).
  destruct C as (d1 & -> & K1 & H1), C' as (d2 & -> & K2 & H2). assert (G : forall k, dget k d1 = dget k d2) by (intros k; rewrite H1, H2; apply V).
  split; [|exact G]. apply Reorder_main.get_perm; [exact K1|exact K2|]. intros k. symmetry. apply G.
Qed.

Lemma c176_merge_proof : forall (A : Type) (s t : sel A) (d : dict A), reachable s -> reachable t -> dict_ok d ->
  let st := fst (sel_merge2 s t) in let ts := fst (sel_merge2 t s) in
  unchained (elements (s_ren st)) -> unchained (elements (s_mren st)) -> chosen_once st ->
  match sel_apply st d, sel_apply ts d with
  | Ok d1, Ok d2 => Permutation d1 d2 /\ forall k, dget k d1 = dget k d2
  | Raise _, Raise _ => True
  | _, _ => False
  end.
Proof.
  intros A s t d HS HT HD st ts U1 U2 HO.
  destruct (c44_merge_is_fold_proof A s st [t] None HS (Forall_cons t HT (Forall_nil _)) ltac:(discriminate) eq_refl) as [L HR].
  destruct (c44_merge_is_fold_proof A t ts [s] None HT (Forall_cons s HS (Forall_nil _)) ltac:(discriminate) eq_refl) as [L' HR'].
  unfold lists in L, L'. cbn [app flat_map] in L, L'. rewrite !app_nil_r in L, L'. injection L as E1 E2 E3 E4 E5 E6. injection L' as F1 F2 F3 F4 F5 F6.
  apply c176_order_proof; try assumption. unfold shuffled. rewrite E1, E2, E3, E4, E5, E6, F1, F2, F3, F4, F5, F6. repeat split; apply Permutation_app_comm.
Qed.

Lemma c176_record_proof : forall {obj ty W} (R : Rt obj ty W) n c (s s' : sel obj) m d w, reachable s -> reachable s' -> is_mapping R m d ->
  shuffled s s' -> unchained (elements (s_ren s)) -> unchained (elements (s_mren s)) -> chosen_once s ->
  (forall d1, sel_apply s d = Ok d1 -> no_reserved d1 /\ separate R c d1) -> no_post_new R c ->
  match from_mapping R (S n) c s [m] [] w, from_mapping R (S n) c s' [m] [] w with
  | (Ok x, w1), (Ok y, w2) => y = x /\ same_but_order R x w1 w2
  | (Raise _, _), (Raise _, _) => True
  | _, _ => False
  end.
Proof.
  intros obj ty W R n c s s' m d w HS HS' HM HSH U1 U2 HO HK HN. pose proof (c176_order_proof obj s s' d HS HS' (proj1 HM) HSH U1 U2 HO) as C.
  assert (OK : forall d1, sel_apply s d = Ok d1 -> dict_ok d1).
  { intros d1 E. pose proof (c42_select_refines_spec_proof obj s d HS (proj1 HM)) as Q. destruct (edits (documented_edits s) (fun k => dget k d)); [|congruence|congruence].
    destruct Q as (d1' & E1 & K & _). congruence. }
  destruct (sel_apply s d) as [d1|e] eqn:E, (sel_apply s' d) as [d2|e'] eqn:E'; try contradiction.
  - rewrite (Export_main.from_mapping_selected R _ c s m d d1 w HM E), (Export_main.from_mapping_selected R _ c s' m d d2 w HM E'). destruct (HK d1 eq_refl) as [HR HP].
    apply Keywords_main.c153_order_proof; try assumption; [apply C|exact (OK d1 eq_refl)].
  - unfold from_mapping, from_mapping_with, bind. rewrite !(Inst_proofs.chain_map_one R m d w HM), E, E'. exact I.
Qed.

Lemma c176_json_proof : forall {obj ty W} (R : Rt obj ty W) n c (s s' : sel obj) t o d w w0, reachable s -> reachable s' ->
  json_loads R t w = (Ok o, w0) -> is_mapping R o d -> (forall w, unpack R o w = (Ok d, w)) -> (forall w, as_dict R o w = (Ok d, w)) ->
  shuffled s s' -> unchained (elements (s_ren s)) -> unchained (elements (s_mren s)) -> chosen_once s ->
  (forall d1, sel_apply s d = Ok d1 -> no_reserved d1 /\ separate R c d1) -> no_post_new R c ->
  match from_json R (S n) c s t w, from_json R (S n) c s' t w with
  | (Ok x, w1), (Ok y, w2) => y = x /\ same_but_order R x w1 w2
  | (Raise _, _), (Raise _, _) => True
  | _, _ => False
  end.
Proof.
  intros obj ty W R n c s s' t o d w w0 HS HS' HJ HM HU HA HSH U1 U2 HO HK HN.
  rewrite (Factories_main.c97_select_proof R (S n) c s t o d w w0 HJ HM HU HA), (Factories_main.c97_select_proof R (S n) c s' t o d w w0 HJ HM HU HA).
  apply (c176_record_proof R n c s s' o d w0); assumption.
Qed.

Lemma c176_export_proof : forall {obj ty W} (R : Rt obj ty W) ctx (s s' : sel obj) x a w, reachable s -> reachable s' ->
  shuffled s s' -> unchained (elements (s_ren s)) -> unchained (elements (s_mren s)) -> chosen_once s ->
  (forall d w', to_dict R ctx x a sel_empty w = (Ok d, w') -> dict_ok d) ->
  match to_dict R ctx x a s w, to_dict R ctx x a s' w with
  | (Ok d1, w1), (Ok d2, w2) => Permutation d1 d2 /\ w2 = w1
  | (Raise _, w1), (Raise _, w2) => w2 = w1
  | _, _ => False
  end.
Proof.
  intros obj ty W R ctx s s' x a w HS HS' HSH U1 U2 HO HD. unfold to_dict, with_class in *. destruct (class_of R ctx x w) as [c|]; [|reflexivity].
  unfold bind in *. destruct (to_dict_of R c x a sel_empty w) as [[d|e] w1]; [|reflexivity].
  pose proof (c176_order_proof obj s s' d HS HS' (HD d w1 eq_refl) HSH U1 U2 HO) as C. unfold lift.
  destruct (sel_apply s d), (sel_apply s' d); try contradiction; [|reflexivity]. split; [apply C|reflexivity].
Qed.

Lemma doubled_edits : forall (A : Type) (ks : list string) (rn : list (string * string)) (ad : list (string * A)), unchained rn -> forall m : fmap A,
  vsame (edits (map (@MaybeRemove A) ks ++ map (fun p => MaybeRename (fst p) (snd p)) rn ++ map (fun p => MaybeAdd (fst p) (snd p)) ad) m)
        (edits (map (@MaybeRemove A) (ks ++ ks) ++ map (fun p => MaybeRename (fst p) (snd p)) (rn ++ rn) ++ map (fun p => MaybeAdd (fst p) (snd p)) (ad ++ ad)) m).
Proof.
  intros A ks rn ad HU m. apply edits_then.
  - destruct (Twice_main.removals_done ks m) as (a & -> & HA). destruct (Twice_main.removals_done (ks ++ ks) m) as (b & -> & HB). intros k. rewrite HA, HB.
    unfold smem. rewrite existsb_app. destruct (existsb (String.eqb k) ks); reflexivity.
  - clear m. intros m m' HM. apply edits_then.
    + rewrite map_app, Twice_main.edits_app. pose proof (edits_same (map (fun p => MaybeRename (fst p) (snd p)) rn) m m' HM) as V.
      destruct (edits (map (fun p => MaybeRename (fst p) (snd p)) rn) m') as [b| |] eqn:E; [|exact V|exact V].
      rewrite (Twice_main.renamings_idle rn b); [exact V|]. exact (Twice_main.renamings_sources rn m' b HU E).
    + clear m m' HM. intros m m' HM. destruct (Twice_main.additions_done ad m) as (a & -> & HA). destruct (Twice_main.additions_done (ad ++ ad) m') as (b & -> & HB).
      intros k. rewrite HA, HB, HM. destruct (m' k); [reflexivity|]. assert (G : forall l l' : dict A, dget k (l ++ l') = match dget k l with Some v => Some v | None => dget k l' end).
      { induction l as [|[j v] r IH]; intros l'; [reflexivity|]. cbn. destruct (String.eqb k j); [reflexivity|apply IH]. }
      rewrite G. destruct (dget k ad); reflexivity.
Qed.

Lemma c175_merged_proof : forall (A : Type) (s : sel A) (d : dict A), reachable s -> dict_ok d -> lenient s -> unchained (elements (s_mren s)) ->
  match sel_apply s d, sel_apply (fst (sel_merge2 s s)) d with
  | Ok d1, Ok d2 => forall k, dget k d1 = dget k d2
  | Raise _, Raise _ => True
  | _, _ => False
  end.
Proof.
  intros A s d HS HD HL HU. set (ss := fst (sel_merge2 s s)).
  destruct (c44_merge_is_fold_proof A s ss [s] None HS (Forall_cons s HS (Forall_nil _)) ltac:(discriminate) eq_refl) as [L HR].
  unfold lists in L. cbn [app flat_map] in L. rewrite !app_nil_r in L. injection L as E1 E2 E3 E4 E5 E6.
  assert (HL' : lenient ss). { destruct HL as (L1 & L2 & L3). unfold lenient. rewrite E1, E3, E5, L1, L2, L3. repeat split. }
  pose proof (c42_select_refines_spec_proof A s d HS HD) as C. pose proof (c42_select_refines_spec_proof A ss d HR HD) as C'.
  pose proof (doubled_edits A (elements (s_mrem s)) (elements (s_mren s)) (elements (s_madd s)) HU (fun k => dget k d)) as V.
  rewrite <- E2, <- E4, <- E6 in V. rewrite <- (Twice_main.lenient_edits s HL), <- (Twice_main.lenient_edits ss HL') in V.
  destruct (edits (documented_edits s) (fun k => dget k d)), (edits (documented_edits ss) (fun k => dget k d)); cbn in V; try contradiction; try (rewrite C, C'; exact I).
  destruct C as (d1 & -> & _ & H1), C' as (d2 & -> & _ & H2). intros k. rewrite H1, H2. apply V.
Qed.

Lemma c176_chain_refuted_proof : exists (s s' : sel nat) (d d1 : dict nat) e, reachable s /\ reachable s' /\ dict_ok d /\ shuffled s s' /\ chosen_once s /\
  sel_apply s d = Ok d1 /\ sel_apply s' d = Raise e.
Proof.
  exists (renaming [("b", "c"); ("a", "b")]), (renaming [("a", "b"); ("b", "c")]), [("a", 1); ("b", 2)]. do 2 eexists.
  split; [apply reach_init; repeat split|]. split; [apply reach_init; repeat split|]. split; [repeat constructor; cbn; intros HX; repeat destruct HX as [HX|HX]; try discriminate HX; exact HX|].
  split; [repeat split; cbn; try apply perm_nil; apply perm_swap|]. split; [split; constructor|]. split; reflexivity.
Qed.

Lemma c176_twice_refuted_proof : exists (s s' : sel nat) (d d1 d2 : dict nat) k, reachable s /\ reachable s' /\ dict_ok d /\ shuffled s s' /\
  unchained (elements (s_ren s)) /\ unchained (elements (s_mren s)) /\ sel_apply s d = Ok d1 /\ sel_apply s' d = Ok d2 /\ dget k d1 <> dget k d2.
Proof.
  exists (sel_init (PMap []) (PIter (Reiter [("a", 1); ("a", 2)])) (NIter (Reiter [])) (NIter (Reiter [])) (PMap []) (PMap [])),
    (sel_init (PMap []) (PIter (Reiter [("a", 2); ("a", 1)])) (NIter (Reiter [])) (NIter (Reiter [])) (PMap []) (PMap [])), []. do 2 eexists. exists "a".
  split; [apply reach_init; repeat split|]. split; [apply reach_init; repeat split|]. split; [constructor|].
  split; [repeat split; cbn; try apply perm_nil; apply perm_swap|]. split; [intros k []|]. split; [intros k []|]. split; [reflexivity|]. split; [reflexivity|]. discriminate.
Qed.
