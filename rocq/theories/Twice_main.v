(** Twice_main.v -- proofs of the properties stated in Props_Twice.v: Selects applied again (records/select.py:103-145) *)

From Verif Require Import Base Dict_proofs Py Select Spec_Select Select_proofs Select_proofs2 Select_main Spec_Edits Filler Classes Runtime Record Spec_Record Spec_Seeds Spec_Keywords Demo DemoRt DemoCls.
From Verif Require Export_main Reorder_main Keywords_main.
Open Scope string_scope.
Open Scope list_scope.

Section Again.
Context {A : Type}.
Notation fmap := (fmap A).
Notation removals := (map (@MaybeRemove A)).
Notation renamings := (map (fun p : string * string => @MaybeRename A (fst p) (snd p))).
Notation additions := (map (fun p : string * A => MaybeAdd (fst p) (snd p))).

Lemma edits_app : forall l l' (m : fmap), edits (l ++ l') m = match edits l m with Done m' => edits l' m' | v => v end.
Proof. induction l as [|e r IH]; intros l' m; [reflexivity|]. cbn. destruct (edit_step e m); [apply IH|reflexivity|reflexivity]. Qed.
Lemma fput_same : forall k v (m : fmap), fput k v m k = v.
Proof. intros k v m. unfold fput. rewrite String.eqb_refl. reflexivity. Qed.
Lemma fput_other : forall k j v (m : fmap), j <> k -> fput k v m j = m j.
Proof. intros k j v m H. unfold fput. apply String.eqb_neq in H. rewrite H. reflexivity. Qed.

Lemma removals_done : forall ks (m : fmap), exists m', edits (removals ks) m = Done m' /\ forall k, m' k = if smem k ks then None else m k.
Proof.
  induction ks as [|k r IH]; intros m; [exists m; split; reflexivity|]. cbn. destruct (IH (fput k None m)) as (m' & E & H). exists m'. split; [exact E|].
  intros j. rewrite H. unfold fput. destruct (String.eqb j k); cbn; [destruct (smem j r)|]; reflexivity.
Qed.
Lemma additions_done : forall l (m : fmap), exists m', edits (additions l) m = Done m' /\ forall k, m' k = match m k with Some x => Some x | None => dget k l end.
Proof.
  induction l as [|[k v] r IH]; intros m; [exists m; split; [reflexivity|intros k; cbn; destruct (m k); reflexivity]|]. cbn. destruct (m k) as [x|] eqn:EK.
  - destruct (IH m) as (m' & E & H). exists m'. split; [exact E|]. intros j. rewrite H. destruct (String.eqb j k) eqn:EJ; [|reflexivity].
    apply String.eqb_eq in EJ. subst j. rewrite EK. reflexivity.
  - destruct (IH (fput k (Some v) m)) as (m' & E & H). exists m'. split; [exact E|]. intros j. rewrite H. unfold fput. destruct (String.eqb j k) eqn:EJ; [|reflexivity].
    apply String.eqb_eq in EJ. subst j. rewrite EK. reflexivity.
Qed.
(** a key that is not there and no new name is not there afterwards *)
Lemma renamings_none : forall l (m m' : fmap) k, edits (renamings l) m = Done m' -> m k = None -> ~ In k (map snd l) -> m' k = None.
Proof.
  induction l as [|[o n] r IH]; intros m m' k E HK HN; [injection E as <-; exact HK|]. cbn in E, HN. destruct (m o) as [v|] eqn:EO.
  - destruct (m n); [discriminate|]. apply (IH _ _ k E); [|tauto]. rewrite fput_other by (intros ->; tauto). unfold fput. destruct (String.eqb k o); [reflexivity|exact HK].
  - apply (IH _ _ k E HK). tauto.
Qed.
Lemma renamings_sources : forall l (m m' : fmap), (forall k, In k (map fst l) -> ~ In k (map snd l)) -> edits (renamings l) m = Done m' -> forall k, In k (map fst l) -> m' k = None.
Proof.
  intros l. assert (K : forall r (m m' : fmap), (forall p, In p r -> In p l) -> (forall k, In k (map fst l) -> ~ In k (map snd l)) -> edits (renamings r) m = Done m' -> forall k, In k (map fst r) -> m' k = None).
  { induction r as [|[o n] r IH]; intros m m' HI HD E k HK; [destruct HK|].
    assert (HS : forall j, In j (map fst l) -> ~ In j (map snd r)).
    { intros j HJ HR. apply (HD j HJ). apply in_map_iff in HR. destruct HR as (p & <- & HR). apply in_map. apply HI. right. exact HR. }
    assert (OL : In o (map fst l)) by (change o with (fst (o, n)); apply in_map; apply HI; left; reflexivity).
    assert (NL : In n (map snd l)) by (change n with (snd (o, n)); apply in_map; apply HI; left; reflexivity).
    cbn in E. destruct (m o) as [v|] eqn:EO.
    - destruct (m n); [discriminate|]. destruct HK as [<-|HK].
      + apply (renamings_none _ _ _ _ E); [|apply HS; exact OL]. cbn. rewrite fput_other by (intros ->; exact (HD n OL NL)). apply fput_same.
      + apply (IH _ _ (fun p HP => HI p (or_intror HP)) HD E _ HK).
    - destruct HK as [<-|HK]; [apply (renamings_none _ _ _ _ E EO); apply HS; exact OL|]. apply (IH _ _ (fun p HP => HI p (or_intror HP)) HD E _ HK). }
  intros m m' HD E. exact (K l m m' (fun p H => H) HD E).
Qed.
Lemma renamings_idle : forall l (m : fmap), (forall k, In k (map fst l) -> m k = None) -> edits (renamings l) m = Done m.
Proof. induction l as [|[o n] r IH]; intros m H; [reflexivity|]. cbn. rewrite (H o) by (left; reflexivity). apply IH. intros k HK. apply H. right. exact HK. Qed.

Lemma lenient_edits : forall s : sel A, lenient s -> documented_edits s = removals (elements (s_mrem s)) ++ renamings (elements (s_mren s)) ++ additions (elements (s_madd s)).
Proof. intros s (E1 & E2 & E3). unfold documented_edits. rewrite E1, E2, E3. reflexivity. Qed.

Lemma twice : forall (s : sel A) (m m1 : fmap), lenient s -> one_way s -> edits (documented_edits s) m = Done m1 ->
  exists m2, edits (documented_edits s) m1 = Done m2 /\ forall k, m2 k = m1 k.
Proof.
  intros s m m1 HL [HS HR] E. rewrite (lenient_edits s HL) in *. destruct HL as (E1 & E2 & E3). unfold sources, targets, removed, added, renames in *. rewrite E1, E2, E3 in *. cbn in HS, HR.
  set (ks := elements (s_mrem s)) in *. set (rn := elements (s_mren s)) in *. set (ad := elements (s_madd s)) in *.
  rewrite !edits_app in E. destruct (removals_done ks m) as (a & EA & HA). rewrite EA in E. rewrite edits_app in E.
  destruct (edits (renamings rn) a) as [b| |] eqn:EB; try discriminate. destruct (additions_done ad b) as (b' & EC & HC). rewrite EC in E. injection E as ->.
  assert (F1 : forall k, In k (map fst rn) -> m1 k = None).
  { intros k HK. destruct (HS k HK) as [H1 H2]. rewrite HC, (renamings_sources rn a b (fun j HJ => proj1 (HS j HJ)) EB k HK). apply dget_None. exact H2. }
  assert (F3 : forall k, smem k ks = true -> m1 k = dget k ad).
  { intros k HK. rewrite HC. rewrite (renamings_none rn a b k EB); [reflexivity| |]; [rewrite HA, HK; reflexivity|]. apply HR. apply smem_In. exact HK. }
  rewrite edits_app. destruct (removals_done ks m1) as (a1 & EA1 & HA1). rewrite EA1, edits_app.
  rewrite renamings_idle by (intros k HK; rewrite HA1; destruct (smem k ks); [reflexivity|apply F1; exact HK]).
  destruct (additions_done ad a1) as (m2 & E2' & H2). exists m2. split; [exact E2'|]. intros k. rewrite H2, HA1. destruct (smem k ks) eqn:EK; [symmetry; apply F3; exact EK|].
  rewrite HC. destruct (b k); [reflexivity|]. destruct (dget k ad); reflexivity.
Qed.
End Again.

Lemma again_ok : forall (A : Type) (s : sel A) (d d1 : dict A), reachable s -> dict_ok d -> lenient s -> one_way s ->
  sel_apply s d = Ok d1 -> dict_ok d1 /\ exists d2, sel_apply s d1 = Ok d2 /\ dict_ok d2 /\ forall k, dget k d2 = dget k d1.
Proof.
  intros A s d d1 HS HD HL HO E. pose proof (c42_select_refines_spec_proof A s d HS HD) as C.
  destruct (edits (documented_edits s) (fun k => dget k d)) as [m| |] eqn:EE; [|congruence|congruence].
  destruct C as (d1' & E1 & OK & H1). rewrite E in E1. injection E1 as <-. destruct (twice s _ m HL HO EE) as (m2 & E2 & H2).
  pose proof (c42_select_refines_spec_proof A s d1 HS OK) as C2.
  assert (X : forall l (m m' : fmap A), (forall k, m k = m' k) -> match edits l m, edits l m' with Done a, Done b => forall k, a k = b k | Missing _, Missing _ => True | Occupied _, Occupied _ => True | _, _ => False end).
  { clear. induction l as [|e r IH]; intros m m' H; [exact H|]. assert (PUT : forall k v j, fput k v m j = fput k v m' j) by (intros k v j; unfold fput; rewrite H; reflexivity).
    assert (PUT2 : forall k v o j, fput k v (fput o None m) j = fput k v (fput o None m') j) by (intros k v o j; unfold fput; rewrite H; reflexivity).
    cbn. destruct e; cbn; rewrite <- ?H; repeat match goal with |- context [match m ?k with _ => _ end] => destruct (m k) end; try exact I; apply IH; auto. }
  specialize (X (documented_edits s) (fun k => dget k d1) m H1). rewrite E2 in X.
  destruct (edits (documented_edits s) (fun k => dget k d1)) as [m3| |]; try contradiction. destruct C2 as (d2 & E3 & OK2 & H3). split; [exact OK|]. exists d2. split; [exact E3|]. split; [exact OK2|].
  intros k. rewrite H3, X, H2, H1. reflexivity.
Qed.

Lemma c175_again_proof : forall (A : Type) (s : sel A) (d d1 : dict A), reachable s -> dict_ok d -> lenient s -> one_way s ->
  sel_apply s d = Ok d1 -> exists d2, sel_apply s d1 = Ok d2 /\ forall k, dget k d2 = dget k d1.
Proof.
 intros A s d d1 HS HD HL HO E. destruct (again_ok A s d d1 HS HD HL HO E) as (_ & d2 & E2 & _ & H2). eauto. Qed.

Lemma c175_record_proof : forall {obj ty W} (R : Rt obj ty W) n c (s : sel obj) m m1 d d1 w, reachable s -> lenient s -> one_way s ->
  is_mapping R m d -> is_mapping R m1 d1 -> sel_apply s d = Ok d1 -> no_reserved d1 -> separate R c d1 -> no_post_new R c ->
  match from_mapping R (S n) c s [m] [] w, from_mapping R (S n) c s [m1] [] w with
  | (Ok x, w1), (Ok y, w2) => y = x /\ same_but_order R x w1 w2
  | (Raise _, _), (Raise _, _) => True
  | _, _ => False
  end.
Proof.
  intros obj ty W R n c s m m1 d d1 w HS HL HO HM HM1 E HR HP HN. destruct (again_ok _ s d d1 HS (proj1 HM) HL HO E) as (K1 & d2 & E2 & K2 & H2).
  rewrite (Export_main.from_mapping_selected R _ c s m d d1 w HM E), (Export_main.from_mapping_selected R _ c s m1 d1 d2 w HM1 E2).
  apply Keywords_main.c153_order_proof; try assumption. apply Reorder_main.get_perm; assumption.
Qed.

Lemma c175_never_refuses_proof : forall (A : Type) (s : sel A) (d : dict A), reachable s -> dict_ok d -> lenient s -> elements (s_mren s) = [] ->
  exists d1, sel_apply s d = Ok d1.
Proof.
  intros A s d HS HD HL HR. pose proof (c42_select_refines_spec_proof A s d HS HD) as C. rewrite (lenient_edits s HL), HR in C. cbn in C. rewrite edits_app in C.
  destruct (removals_done (elements (s_mrem s)) (fun k => dget k d)) as (a & EA & _). rewrite EA in C.
  destruct (additions_done (elements (s_madd s)) a) as (b & EB & _). rewrite EB in C. destruct C as (d1 & E & _). eauto.
Qed.

Lemma c175_strict_refuted_proof : exists (s : sel nat) (d d1 : dict nat) k, reachable s /\ dict_ok d /\ one_way s /\
  sel_apply s d = Ok d1 /\ sel_apply s d1 = Raise (mkexc KeyError k).
Proof.
  exists (sel_init (PMap []) (PMap []) (NIter (Reiter ["a"])) (NIter (Reiter [])) (PMap []) (PMap [])), [("a", 1); ("b", 2)], [("b", 2)], "a".
  split; [apply reach_init; repeat split|]. split; [repeat constructor; cbn; intuition discriminate|]. split; [split; cbn; intuition|]. split; reflexivity.
Qed.

Lemma c175_reused_refuted_proof : exists (s : sel nat) (d d1 d2 : dict nat) k v, reachable s /\ dict_ok d /\ lenient s /\
  sel_apply s d = Ok d1 /\ sel_apply s d1 = Ok d2 /\ dget k d1 = Some v /\ dget k d2 = None.
Proof.
  exists (sel_init (PMap []) (PMap []) (NIter (Reiter [])) (NIter (Reiter ["b"])) (PMap []) (PMap [("a", "b")])), [("a", 1); ("b", 2)], [("b", 1)], [], "b", 1.
  split; [apply reach_init; repeat split|]. split; [repeat constructor; cbn; intuition discriminate|]. split; [repeat split|]. repeat (split; [reflexivity|]). reflexivity.
Qed.
