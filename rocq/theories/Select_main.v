(** Select_main.v -- proofs of the properties stated in Props_Select.v: Select (records/select.py) *)

From Verif Require Import Base Dict_proofs Select Spec_Select Select_proofs Select_proofs2.
Open Scope string_scope.
Open Scope list_scope.

(** shorthands used by the statements: the key lists of a Select *)
Definition removed {A} (s : sel A) : list string := elements (s_rem s) ++ elements (s_mrem s).
Definition renames {A} (s : sel A) : list (string * string) := elements (s_ren s) ++ elements (s_mren s).
Definition sources {A} (s : sel A) : list string := map fst (renames s).
Definition targets {A} (s : sel A) : list string := map snd (renames s).
Definition added {A} (s : sel A) : list string := keys (elements (s_add s)) ++ keys (elements (s_madd s)).
(** all keys a Select mentions *)
Definition mentioned {A} (s : sel A) : list string := removed s ++ sources s ++ targets s ++ added s.

(** what the keyword arguments of Select are documented to mean, in order *)
Definition documented_edits {A} (s : sel A) : list (edit A) :=
  map Remove (elements (s_rem s)) ++ map MaybeRemove (elements (s_mrem s))
  ++ map (fun p => Rename (fst p) (snd p)) (elements (s_ren s))
  ++ map (fun p => MaybeRename (fst p) (snd p)) (elements (s_mren s))
  ++ map (fun p => Add (fst p) (snd p)) (elements (s_add s))
  ++ map (fun p => MaybeAdd (fst p) (snd p)) (elements (s_madd s)).

(** a Select with only strict renames *)
Definition renaming {A} (r : list (string * string)) : sel A :=
  sel_init (PIter (Reiter [])) (PIter (Reiter [])) (NIter (Reiter [])) (NIter (Reiter []))
           (PIter (Reiter r)) (PIter (Reiter [])).
Definition swap (p : string * string) := (snd p, fst p).

(** the documented order in which the edits of one Select are made *)
Definition phase {A} (e : edit A) : nat :=
  match e with
  | Remove _ => 1 | MaybeRemove _ => 2 | Rename _ _ => 3 | MaybeRename _ _ => 4 | Add _ _ => 5 | MaybeAdd _ _ => 6
  end.
(** the keys an edit is about *)
Definition mentions {A} (e : edit A) : list string :=
  match e with
  | Remove k | MaybeRemove k | Add k _ | MaybeAdd k _ => [k]
  | Rename a b | MaybeRename a b => [a; b]
  end.

(** a Select used any number of times, on any mappings *)
Inductive used {A} (s : sel A) : sel A -> Prop :=
| used_refl : used s s
| used_call s' d : used s s' -> dict_ok d -> used s (snd (sel_call s' d))
| used_truth s' : used s s' -> used s (snd (sel_truth s')).

Lemma takes_cases {A} (s : sel A) e k : In e (edits_of s) -> takes e k -> In k (removed s) \/ In k (sources s).
Proof.
  unfold edits_of, removed, sources, renames. rewrite !in_app_iff, map_app, !in_app_iff, !in_map_iff.
  intros [(x & <- & H)|[(x & <- & H)|[(x & <- & H)|[(x & <- & H)|[(x & <- & H)|(x & <- & H)]]]]]; simpl; intros; subst; try tauto.
  - right. left. now exists x.
  - right. right. now exists x.
Qed.

Lemma writes_cases {A} (s : sel A) e k : In e (edits_of s) -> writes e k -> In k (targets s) \/ In k (added s).
Proof.
  unfold edits_of, added, targets, renames, keys. rewrite !in_app_iff, map_app, !in_app_iff, !in_map_iff.
  intros [(x & <- & H)|[(x & <- & H)|[(x & <- & H)|[(x & <- & H)|[(x & <- & H)|(x & <- & H)]]]]]; simpl; intros; subst; try tauto.
  - left. left. now exists x.
  - left. right. now exists x.
  - right. left. now exists x.
  - right. right. now exists x.
Qed.

Lemma mentioned_touches {A} (s : sel A) k : ~ In k (mentioned s) -> forall e, In e (edits_of s) -> ~ touches e k.
Proof.
  unfold mentioned. rewrite !in_app_iff. intros H e He [T|T].
  - apply (takes_cases s) in T; tauto.
  - apply (writes_cases s) in T; tauto.
Qed.

Lemma c42_select_refines_spec_proof :
  forall (A : Type) (s : sel A) (d : dict A), reachable s -> dict_ok d ->
  match edits (documented_edits s) (fun k => dget k d) with
  | Done m => exists d', sel_apply s d = Ok d' /\ dict_ok d' /\ forall k, dget k d' = m k
  | Missing k => sel_apply s d = Raise (mkexc KeyError k)
  | Occupied k => sel_apply s d = Raise (mkexc ValueError ("key " ++ k ++ " cannot be overridden in map"))
  end.
Proof.
  intros A s d Hs Hd. exact (sel_apply_spec s d Hs Hd).
Qed.

Lemma c42_frame_proof :
  forall (A : Type) (s : sel A) (d d' : dict A) (k : string),
  reachable s -> dict_ok d -> sel_apply s d = Ok d' -> ~ In k (mentioned s) -> dget k d' = dget k d.
Proof.
  intros A s d d' k Hs Hd H Hk.
  apply sel_apply_ok_inv in H as (m & Hm & _ & Hg); auto. rewrite Hg.
  apply (edits_frame _ _ _ k Hm). now apply mentioned_touches.
Qed.

Lemma c42_removed_are_gone_proof :
  forall (A : Type) (s : sel A) (d d' : dict A) (k : string),
  reachable s -> dict_ok d -> sel_apply s d = Ok d' ->
  In k (removed s) -> ~ In k (targets s) -> ~ In k (added s) -> dget k d' = None.
Proof.
  intros A s d d' k Hs Hd H Hr Ht Ha.
  apply sel_apply_ok_inv in H as (m & Hm & _ & Hg); auto. rewrite Hg.
  assert (exists e, In e (edits_of s) /\ takes e k) as (e & He & Te).
  { unfold removed in Hr. apply in_app_iff in Hr. unfold edits_of. destruct Hr as [Hr|Hr].
    - exists (Remove k). split; [|reflexivity]. apply in_app_iff. left. now apply in_map.
    - exists (MaybeRemove k). split; [|reflexivity]. apply in_app_iff. right. apply in_app_iff. left. now apply in_map. }
  apply (edits_taken _ _ _ k e Hm He Te). intros e' He' W.
  apply (writes_cases s) in W; tauto.
Qed.

Lemma c42_renamed_proof :
  forall (A : Type) (s : sel A) (d d' : dict A) (old new : string),
  reachable s -> dict_ok d -> sel_apply s d = Ok d' ->
  In (old, new) (elements (s_ren s)) -> ~ In old (targets s) -> ~ In new (sources s) ->
  (exists v, dget old d = Some v /\ dget new d' = Some v) /\ (~ In old (added s) -> dget old d' = None).
Proof.
  intros A s d d' old new Hs Hd H Hr Ho Hn.
  apply sel_apply_ok_inv in H as (m & Hm & _ & Hg); auto. rewrite !Hg. split.
  - unfold edits_of in Hm.
    apply in_split in Hr as (r1 & r2 & Er).
    remember (map Remove (elements (s_rem s))) as P1.
    remember (map MaybeRemove (elements (s_mrem s))) as P2.
    rewrite Er, map_app in Hm. cbn [map] in Hm.
    set (post := map (fun p => MaybeRename (fst p) (snd p)) (elements (s_mren s)) ++
        map (fun p => Add (fst p) (snd p)) (elements (s_add s)) ++
        map (fun p => MaybeAdd (fst p) (snd p)) (elements (s_madd s))) in Hm.
    set (pre := P1 ++ P2 ++ map (fun p => Rename (fst p) (snd p)) r1).
    assert (Hm' : edits (pre ++ Rename old new :: (map (fun p => Rename (fst p) (snd p)) r2 ++ post)) (abs d) = Done m).
    { rewrite <- Hm. f_equal. unfold pre. simpl. now rewrite <- !app_assoc. }
    rewrite edits_app in Hm'. destruct (edits pre (abs d)) as [m1| |] eqn:E1; try discriminate.
    cbn [edits] in Hm'. destruct (edit_step (Rename old new) m1) as [m2| |] eqn:E2; try discriminate.
    assert (Ts : forall x, In x r1 \/ In x r2 -> In (fst x) (sources s) /\ In (snd x) (targets s)).
    { intros x Hx. unfold sources, targets, renames. rewrite !map_app, !in_app_iff, Er, !map_app, !in_app_iff.
      simpl. rewrite !in_map_iff. split; left; destruct Hx; eauto 6. }
    simpl in E2. destruct (m1 new) eqn:En; try discriminate. destruct (m1 old) as [v|] eqn:Eo; try discriminate.
    injection E2 as <-.
    exists v. split.
    + destruct (edits_nowrite _ _ _ old E1) as [H1|H1]; [|unfold abs in H1; congruence|congruence].
      intros e He W. unfold pre in He. subst P1 P2. rewrite !in_app_iff, !in_map_iff in He.
      destruct He as [(x & <- & _)|[(x & <- & _)|(x & <- & Hx)]]; simpl in W; try tauto.
      subst. apply Ho. apply Ts. now left.
    + refine (edits_keeps _ _ _ new v Hm' _ _).
      * intros e He T. unfold post in He. rewrite !in_app_iff, !in_map_iff in He.
        destruct He as [(x & <- & Hx)|[(x & <- & Hx)|[(x & <- & Hx)|(x & <- & Hx)]]]; simpl in T; try tauto; subst; apply Hn.
        -- apply Ts. now right.
        -- unfold sources, renames. rewrite map_app, in_app_iff. right. now apply in_map.
      * unfold fput. now rewrite String.eqb_refl.
  - intros Ha. apply (edits_taken _ _ _ old (Rename old new) Hm).
    + unfold edits_of. rewrite !in_app_iff. right. right. left. apply in_map_iff. now exists (old, new).
    + reflexivity.
    + intros e He W. apply (writes_cases s) in W; tauto.
Qed.

Lemma c42_maybe_renamed_proof :
  forall (A : Type) (s : sel A) (d d' : dict A) (old new : string),
  reachable s -> dict_ok d -> sel_apply s d = Ok d' ->
  In (old, new) (elements (s_mren s)) -> old <> new ->
  ~ In old (removed s) -> ~ In old (map fst (elements (s_ren s))) -> ~ In old (targets s) ->
  ~ In new (removed s) -> ~ In new (sources s) -> ~ In new (map snd (elements (s_ren s))) -> ~ In new (added s) ->
  (forall x, In x (elements (s_mren s)) -> fst x = old \/ snd x = new -> x = (old, new)) ->
  match dget old d with
  | Some v => dget new d' = Some v
  | None => dget new d' = dget new d
  end.
Proof.
  intros A s d d' old new Hs Hd H Hr Hne Or Os Ot Nr Ns Nt Na Hu.
  apply sel_apply_ok_inv in H as (m & Hm & _ & Hg); auto. rewrite !Hg.
  unfold edits_of in Hm. rewrite !app_assoc in Hm. rewrite <- (app_assoc _ (map (fun p => Add _ _) _)) in Hm.
  rewrite edits_app in Hm.
  match type of Hm with match edits ?l _ with _ => _ end = _ => set (L := l) in Hm end.
  destruct (edits L (abs d)) as [m1| |] eqn:E1; try discriminate.
  assert (Hpost : m new = m1 new).
  { apply (edits_frame _ _ _ new Hm). intros e He T. rewrite in_app_iff, !in_map_iff in He.
    apply Na. unfold added, keys. rewrite in_app_iff, !in_map_iff.
    destruct He as [(x & <- & Hx)|(x & <- & Hx)]; destruct T as [T|T]; simpl in T; try tauto; subst; eauto. }
  rewrite Hpost. clear Hpost Hm.
  unfold L in E1. rewrite edits_app in E1.
  match type of E1 with match edits ?l _ with _ => _ end = _ => set (K := l) in E1 end.
  destruct (edits K (abs d)) as [m0| |] eqn:E0; try discriminate.
  assert (Hpre : forall k, k = old \/ k = new -> m0 k = dget k d).
  { intros k Hk. apply (edits_frame _ _ _ k E0). intros e He T. unfold K in He. rewrite !in_app_iff, !in_map_iff in He.
    destruct He as [[(x & <- & Hx)|(x & <- & Hx)]|(x & <- & Hx)]; destruct T as [T|T]; simpl in T; try tauto; subst.
    - unfold removed in Or, Nr. rewrite in_app_iff in Or, Nr. destruct Hk; subst; tauto.
    - unfold removed in Or, Nr. rewrite in_app_iff in Or, Nr. destruct Hk; subst; tauto.
    - destruct Hk as [Hk|Hk].
      + apply Os. rewrite <- Hk. now apply in_map.
      + apply Ns. rewrite <- Hk. unfold sources, renames. rewrite map_app, in_app_iff. left. now apply in_map.
    - destruct Hk as [Hk|Hk].
      + apply Ot. rewrite <- Hk. unfold targets, renames. rewrite map_app, in_app_iff. left. now apply in_map.
      + apply Nt. rewrite <- Hk. now apply in_map. }
  rewrite <- (Hpre old), <- (Hpre new) by auto. clear Hpre E0.
  assert (Hu' : forall x, In x (elements (s_mren s)) -> x = (old, new) \/
            ~ touches (@MaybeRename A (fst x) (snd x)) old /\ ~ touches (@MaybeRename A (fst x) (snd x)) new).
  { intros [a b] Hx. simpl. destruct (string_dec a old) as [->|N1].
    - left. apply (Hu (old, b)); simpl; auto.
    - destruct (string_dec b new) as [->|N2].
      + left. apply (Hu (a, new)); simpl; auto.
      + right. unfold touches. simpl. split; intros [E|E]; subst.
        * congruence.
        * apply Ot. unfold targets, renames. rewrite map_app, in_app_iff. right. apply in_map_iff. now exists (a, b).
        * apply Ns. unfold sources, renames. rewrite map_app, in_app_iff. right. apply in_map_iff. now exists (a, b).
        * congruence. }
  clear Hu. clear - E1 Hr Hu' Hne.
  remember (elements (s_mren s)) as r eqn:Er. clear Er.
  revert m0 E1. induction r as [|x r IH]; intros m0 E1; [destruct Hr|].
  cbn [map edits] in E1.
  destruct (edit_step (MaybeRename (fst x) (snd x)) m0) as [m2| |] eqn:E2; try discriminate.
  assert (Rest : forall (m2 m1 : fmap A), edits (map (fun p => MaybeRename (fst p) (snd p)) r) m2 = Done m1 -> m2 old = None -> m1 new = m2 new).
  { clear - Hu' Hne. induction r as [|y r IH]; simpl; intros m2 m1 E Ho.
    - now injection E as <-.
    - destruct (Hu' y) as [->|[U1 U2]]; [right; now left| |].
      + simpl in E. rewrite Ho in E. apply IH; auto. intros z [Hz|Hz]; apply Hu'; [now left | right; now right].
      + pose proof (edit_step (MaybeRename (fst y) (snd y)) m2) as _.
        destruct (match m2 (fst y) with Some _ => _ | None => _ end) as [m3| |] eqn:E3 in E; try discriminate.
        assert (E3' : edit_step (MaybeRename (fst y) (snd y)) m2 = Done m3) by exact E3.
        rewrite <- (step_frame _ _ _ new E3' U2). apply IH; auto.
        * intros z [Hz|Hz]; apply Hu'; [now left | right; now right].
        * now rewrite (step_frame _ _ _ old E3' U1). }
  destruct (Hu' x) as [->|[U1 U2]]; [now left| |].
  - simpl in E2. destruct (m0 old) as [v|] eqn:Eo.
    + destruct (m0 new) eqn:En; try discriminate. injection E2 as <-.
      rewrite (Rest _ _ E1).
      * unfold fput. now rewrite String.eqb_refl.
      * unfold fput. apply String.eqb_neq in Hne. now rewrite Hne, String.eqb_refl.
    + injection E2 as <-. now apply Rest.
  - destruct Hr as [->|Hr]; [exfalso; apply U1; left; reflexivity|].
    rewrite <- (step_frame _ _ _ old E2 U1), <- (step_frame _ _ _ new E2 U2).
    apply IH; auto. intros y Hy. apply Hu'. now right.
Qed.

Lemma c42_added_proof :
  forall (A : Type) (s : sel A) (d d' : dict A) (k : string) (v : A),
  reachable s -> dict_ok d -> sel_apply s d = Ok d' -> In (k, v) (elements (s_add s)) -> dget k d' = Some v.
Proof.
  intros A s d d' k v Hs Hd H Hi.
  apply sel_apply_ok_inv in H as (m & Hm & _ & Hg); auto. rewrite Hg.
  unfold edits_of in Hm. apply in_split in Hi as (a1 & a2 & Ea). rewrite Ea, map_app in Hm. cbn [map] in Hm.
  rewrite <- app_assoc in Hm. simpl app in Hm. rewrite !app_assoc in Hm. rewrite edits_app in Hm.
  match type of Hm with match edits ?l _ with _ => _ end = _ => destruct (edits l (abs d)) as [m1| |] eqn:E1; try discriminate end.
  cbn [edits fst snd] in Hm. simpl edit_step in Hm. destruct (m1 k) eqn:Ek; try discriminate.
  refine (edits_keeps _ _ _ k v Hm _ _).
  - intros e He T. rewrite in_app_iff, !in_map_iff in He. destruct He as [(x & <- & _)|(x & <- & _)]; exact T.
  - unfold fput. now rewrite String.eqb_refl.
Qed.

Lemma c42_maybe_added_proof :
  forall (A : Type) (s : sel A) (d d' : dict A) (k : string) (v : A),
  reachable s -> dict_ok d -> sel_apply s d = Ok d' ->
  dget k (elements (s_madd s)) = Some v ->
  ~ In k (removed s) -> ~ In k (sources s) -> ~ In k (targets s) -> ~ In k (keys (elements (s_add s))) ->
  dget k d' = match dget k d with Some x => Some x | None => Some v end.
Proof.
  intros A s d d' k v Hs Hd H Hi Hr Hso Ht Ha.
  apply sel_apply_ok_inv in H as (m & Hm & _ & Hg); auto. rewrite Hg.
  unfold edits_of in Hm. rewrite !app_assoc in Hm. rewrite edits_app in Hm.
  match type of Hm with match edits ?l _ with _ => _ end = _ => set (L := l) in Hm end.
  destruct (edits L (abs d)) as [m1| |] eqn:E1; try discriminate.
  assert (E : m1 k = dget k d).
  { apply (edits_frame _ _ _ k E1). intros e He T.
    assert (Hin : In e (edits_of s)).
    { unfold edits_of. rewrite !app_assoc. apply in_app_iff. left. exact He. }
    destruct T as [T|T].
    - apply (takes_cases s) in T; tauto.
    - unfold L in He. rewrite !in_app_iff, !in_map_iff in He.
      destruct He as [[[[(x & <- & Hx)|(x & <- & Hx)]|(x & <- & Hx)]|(x & <- & Hx)]|(x & <- & Hx)]; simpl in T; try tauto; subst.
      + apply Ht. unfold targets, renames. rewrite map_app, in_app_iff. left. now apply in_map.
      + apply Ht. unfold targets, renames. rewrite map_app, in_app_iff. right. now apply in_map.
      + apply Ha. now apply in_map. }
  rewrite <- E. clear E1 E. clearbody L. revert m1 Hm Hi. generalize (elements (s_madd s)) as l.
  induction l as [|[k' v'] r IH]; intros m1 Hm Hi; [discriminate|].
  cbn [map edits fst snd] in Hm. simpl edit_step in Hm. simpl in Hi.
  assert (Keep : forall x m1, m1 k = Some x -> edits (map (fun p => MaybeAdd (fst p) (snd p)) r) m1 = Done m -> m k = Some x).
  { intros x m2 Hx H2. refine (edits_keeps _ _ _ k x H2 _ Hx).
    intros e He T. rewrite in_map_iff in He. destruct He as (y & <- & _). exact T. }
  destruct (String.eqb_spec k k') as [->|N].
  - injection Hi as ->. destruct (m1 k') eqn:Ek.
    + now apply (Keep _ m1).
    + apply (Keep v (fput k' (Some v) m1)); [unfold fput; now rewrite String.eqb_refl | exact Hm].
  - destruct (m1 k') eqn:Ek'.
    + now apply IH.
    + rewrite (IH _ Hm Hi). unfold fput. apply String.eqb_neq in N. now rewrite N.
Qed.

Lemma c43_never_overwrites_proof :
  forall (A : Type) (s : sel A) (d d' : dict A) (k : string) (v : A),
  reachable s -> dict_ok d -> sel_apply s d = Ok d' ->
  dget k d = Some v -> ~ In k (removed s) -> ~ In k (sources s) -> dget k d' = Some v.
Proof.
  intros A s d d' k v Hs Hd H Hk Hr Hso.
  apply sel_apply_ok_inv in H as (m & Hm & _ & Hg); auto. rewrite Hg.
  refine (edits_keeps _ _ _ k v Hm _ Hk).
  intros e He T. apply (takes_cases s) in T; tauto.
Qed.

Lemma c43_errors_proof :
  forall (A : Type) (d : dict A) (k n : string) (v : A), dict_ok d ->
  (dget k d = None -> sel_apply (sel_init (PMap []) (PMap []) (NStr k) (NIter (Reiter [])) (PMap []) (PMap [])) d
                      = Raise (mkexc KeyError k)) /\
  (dget n d = None -> dget k d = None ->
   sel_apply (sel_init (PMap []) (PMap []) (NIter (Reiter [])) (NIter (Reiter [])) (PMap [(k, n)]) (PMap [])) d
   = Raise (mkexc KeyError k)) /\
  (dget n d <> None ->
   sel_apply (sel_init (PMap []) (PMap []) (NIter (Reiter [])) (NIter (Reiter [])) (PMap [(k, n)]) (PMap [])) d
   = Raise (mkexc ValueError ("key " ++ n ++ " cannot be overridden in map"))) /\
  (dget k d <> None ->
   sel_apply (sel_init (PMap [(k, v)]) (PMap []) (NIter (Reiter [])) (NIter (Reiter [])) (PMap []) (PMap [])) d
   = Raise (mkexc ValueError ("key " ++ k ++ " cannot be overridden in map"))).
Proof.
  intros A d k n v Hd. repeat split; intros.
  - unfold sel_apply, sel_call_mapping, sel_call. cbn. unfold do_remove, dmem. rewrite H. reflexivity.
  - unfold sel_apply, sel_call_mapping, sel_call. cbn. unfold dmem. rewrite H, H0. reflexivity.
  - unfold sel_apply, sel_call_mapping, sel_call. cbn. unfold dmem. destruct (dget n d); [reflexivity|tauto].
  - unfold sel_apply, sel_call_mapping, sel_call. cbn. unfold dmem. destruct (dget k d); [reflexivity|tauto].
Qed.

Lemma c44_merge_assoc_proof :
  forall (A : Type) (s t u : sel A) (d : dict A), reachable s -> reachable t -> reachable u ->
  sel_apply (fst (sel_merge2 (fst (sel_merge2 s t)) u)) d = sel_apply (fst (sel_merge2 s (fst (sel_merge2 t u)))) d.
Proof.
  intros A s t u d Hs Ht Hu.
  apply sel_apply_lists; [repeat apply reach_merge; assumption | repeat apply reach_merge; assumption |].
  apply reachable_ok in Hs as [? ?], Ht as [? ?], Hu as [? ?].
  destruct (merge2_stable s t) as (? & ? & L1); auto.
  destruct (merge2_stable t u) as (? & ? & L2); auto.
  destruct (merge2_stable (fst (sel_merge2 s t)) u) as (_ & _ & ->); auto.
  destruct (merge2_stable s (fst (sel_merge2 t u))) as (_ & _ & ->); auto.
  unfold lists in L1, L2. injection L1 as -> -> -> -> -> ->. injection L2 as -> -> -> -> -> ->.
  now rewrite !app_assoc.
Qed.

Lemma c44_merge_empty_proof :
  forall (A : Type) (s : sel A) (d : dict A), reachable s ->
  sel_apply (fst (sel_merge2 sel_empty s)) d = sel_apply s d /\
  sel_apply (fst (sel_merge2 s sel_empty)) d = sel_apply s d.
Proof.
  intros A s d Hs.
  assert (He : reachable (@sel_empty A)) by (constructor; repeat split; reflexivity).
  split; (apply sel_apply_lists; [now apply reach_merge | assumption |]);
    apply reachable_ok in Hs as [? ?], He as [? ?].
  - destruct (merge2_stable sel_empty s) as (_ & _ & ->); auto.
  - destruct (merge2_stable s sel_empty) as (_ & _ & ->); auto. unfold lists. cbn. now rewrite !app_nil_r.
Qed.

Lemma c44_merge_nothing_proof : forall (A : Type) (s : sel A) (others : list (sel A)) (kw : option (sel A)),
  (others = [] /\ kw = None -> exists m, sel_merge s others kw = Raise (mkexc TypeError m)) /\
  (others <> [] \/ kw <> None -> exists r, sel_merge s others kw = Ok r).
Proof.
  intros A s others kw. split; [intros [-> ->]; eexists; reflexivity|]. intros H.
  destruct others as [|o r], kw as [k|]; cbn; eauto. destruct H as [H|H]; congruence.
Qed.

Lemma c44_merge_is_fold_proof :
  forall (A : Type) (s r : sel A) (others : list (sel A)) (kw : option (sel A)),
  reachable s -> Forall reachable others -> (forall k, kw = Some k -> reachable k) ->
  sel_merge s others kw = Ok r ->
  let all := s :: others ++ match kw with Some k => [k] | None => [] end in
  lists r = (flat_map (fun t => elements (s_rem t)) all, flat_map (fun t => elements (s_mrem t)) all,
             flat_map (fun t => elements (s_ren t)) all, flat_map (fun t => elements (s_mren t)) all,
             flat_map (fun t => elements (s_add t)) all, flat_map (fun t => elements (s_madd t)) all)
  /\ reachable r.
Proof.
  intros A s r others kw Hs Ho Hk H.
  assert (Hf : forall (os : list (sel A)) (s : sel A), reachable s -> Forall reachable os ->
    let r := fold_left (fun acc o => fst (sel_merge2 acc o)) os s in
    reachable r /\ lists r =
            (flat_map (fun t => elements (s_rem t)) (s :: os), flat_map (fun t => elements (s_mrem t)) (s :: os),
             flat_map (fun t => elements (s_ren t)) (s :: os), flat_map (fun t => elements (s_mren t)) (s :: os),
             flat_map (fun t => elements (s_add t)) (s :: os), flat_map (fun t => elements (s_madd t)) (s :: os))).
  { clear. induction os as [|o os IH]; intros s Hs Ho.
    - simpl. split; auto. now rewrite !app_nil_r.
    - inversion Ho as [|? ? Ho1 Ho2]; subst. cbn [fold_left].
      destruct (IH (fst (sel_merge2 s o))) as [R L]; auto; [now constructor|].
      split; auto. rewrite L. cbn [flat_map].
      apply reachable_ok in Hs as [? ?]. apply reachable_ok in Ho1 as [? ?].
      destruct (merge2_stable s o) as (_ & _ & M); auto. unfold lists in M. injection M as -> -> -> -> -> ->.
      now rewrite <- !app_assoc. }
  destruct kw as [k|].
  - assert (Hr : r = fold_left (fun acc o => fst (sel_merge2 acc o)) (others ++ [k]) s).
    { rewrite fold_left_app. cbn [fold_left]. unfold sel_merge in H. destruct others; now injection H as <-. }
    subst r. destruct (Hf (others ++ [k]) s) as [R L]; auto.
    apply Forall_app. split; auto.
  - assert (Hr : r = fold_left (fun acc o => fst (sel_merge2 acc o)) others s).
    { unfold sel_merge in H. destruct others; [discriminate|]. now injection H as <-. }
    subst r. destruct (Hf others s) as [R L]; auto.
    rewrite app_nil_r. auto.
Qed.

Lemma c44_empty_select_is_noop_proof :
  forall (A : Type) (s : sel A) (d : dict A), reachable s -> mentioned s = [] -> sel_apply s d = Ok d.
Proof.
  intros A s d Hs Hm.
  assert (E : edits_of s = []).
  { unfold mentioned, removed, sources, targets, renames, added, keys in Hm. unfold edits_of.
    rewrite !map_app in Hm.
    repeat (apply app_eq_nil in Hm as [?Hm Hm]).
    repeat match goal with H : (_ ++ _)%list = [] |- _ => apply app_eq_nil in H as [? ?] end.
    repeat match goal with H : map _ _ = [] |- _ => apply map_eq_nil in H; rewrite H end.
    repeat match goal with H : elements _ = [] |- _ => rewrite H end. reflexivity. }
  apply reachable_ok in Hs as [Ss Bs].
  unfold sel_apply, sel_call_mapping, sel_call. rewrite (sel_truth_stable s Ss Bs), E. reflexivity.
Qed.

Lemma touches_mentions {A} (e : edit A) k : touches e k -> In k (mentions e).
Proof. unfold touches, takes, writes. destruct e; simpl; intuition (subst; auto). Qed.

Lemma documented_mentioned {A} (s : sel A) e k : In e (documented_edits s) -> In k (mentions e) -> In k (mentioned s).
Proof.
  unfold documented_edits, mentioned, removed, sources, targets, renames, added, keys.
  rewrite !map_app, !in_app_iff, !in_map_iff.
  intros [(x & <- & H)|[(x & <- & H)|[(x & <- & H)|[(x & <- & H)|[(x & <- & H)|(x & <- & H)]]]]]; cbn [mentions In];
    intros Hk; repeat (destruct Hk as [<-|Hk]); try tauto.
  all: try (solve [right; left; left; now exists x | right; left; right; now exists x
                  | right; right; left; left; now exists x | right; right; left; right; now exists x
                  | right; right; right; left; now exists x | right; right; right; right; now exists x]).
Qed.

Lemma c45_in_order_partial_proof :
  forall (A : Type) (s t : sel A) (d : dict A), reachable s -> reachable t -> dict_ok d ->
  (forall e e', In e (documented_edits s) -> In e' (documented_edits t) -> phase e' < phase e ->
                forall k, In k (mentions e) -> In k (mentions e') -> False) ->
  match sel_apply (fst (sel_merge2 s t)) d, (do d1 <- sel_apply s d; sel_apply t d1) with
  | Ok d1, Ok d2 => forall k, dget k d1 = dget k d2
  | Raise _, Raise _ => True
  | _, _ => False
  end.
Proof.
  intros A s t d Hs Ht Hd Hdis.
  assert (Hm : reachable (fst (sel_merge2 s t))) by now constructor.
  pose proof (sel_apply_spec _ d Hm Hd) as M. pose proof (sel_apply_spec s d Hs Hd) as S.
  assert (V : same_verdict (edits (edits_of (fst (sel_merge2 s t))) (abs d)) (edits (edits_of s ++ edits_of t) (abs d))).
  { assert (Hi : forall e1 e2, In e1 (edits_of s) -> In e2 (edits_of t) -> phase e2 < phase e1 -> indep e2 e1).
    { intros e1 e2 H1 H2 Hp k T2 T1. apply (Hdis e1 e2 H1 H2 Hp k); now apply touches_mentions. }
    apply reachable_ok in Hs as [? ?], Ht as [? ?].
    destruct (merge2_stable s t) as (_ & _ & L); auto.
    unfold edits_of in *. unfold lists in L. injection L as -> -> -> -> -> ->. rewrite !map_app.
    assert (Ph : forall (n : nat) X (f : X -> edit A) l, (forall x, phase (f x) = n) -> forall e, In e (map f l) -> phase e = n).
    { intros n X f l Hf e He. apply in_map_iff in He as (x & <- & _). apply Hf. }
    pose proof (Ph 1 _ (@Remove A) (elements (s_rem t)) (fun _ => eq_refl)) as T1.
    pose proof (Ph 2 _ (@MaybeRemove A) (elements (s_mrem t)) (fun _ => eq_refl)) as T2.
    pose proof (Ph 3 _ (fun p => @Rename A (fst p) (snd p)) (elements (s_ren t)) (fun _ => eq_refl)) as T3.
    pose proof (Ph 4 _ (fun p => @MaybeRename A (fst p) (snd p)) (elements (s_mren t)) (fun _ => eq_refl)) as T4.
    pose proof (Ph 5 _ (fun p => @Add A (fst p) (snd p)) (elements (s_add t)) (fun _ => eq_refl)) as T5.
    pose proof (Ph 2 _ (@MaybeRemove A) (elements (s_mrem s)) (fun _ => eq_refl)) as S2.
    pose proof (Ph 3 _ (fun p => @Rename A (fst p) (snd p)) (elements (s_ren s)) (fun _ => eq_refl)) as S3.
    pose proof (Ph 4 _ (fun p => @MaybeRename A (fst p) (snd p)) (elements (s_mren s)) (fun _ => eq_refl)) as S4.
    pose proof (Ph 5 _ (fun p => @Add A (fst p) (snd p)) (elements (s_add s)) (fun _ => eq_refl)) as S5.
    pose proof (Ph 6 _ (fun p => @MaybeAdd A (fst p) (snd p)) (elements (s_madd s)) (fun _ => eq_refl)) as S6.
    repeat match goal with |- context [map ?f (elements ?x)] => let n := fresh "L" in remember (map f (elements x)) as n end.
    rewrite <- !app_assoc.
    assert (Sw : forall (X Y Z : list (edit A)) (m : fmap A), (forall e1 e2, In e1 X -> In e2 Y -> indep e1 e2) ->
                 same_verdict (edits (X ++ Y ++ Z) m) (edits (Y ++ X ++ Z) m)).
    { intros X Y Z m HI. rewrite !app_assoc. apply edits_same_app. now apply edits_swap_block. }
    (* move the edits of t behind those of s, one kind at a time *)
    assert (Key : forall s1 s2 s3 s4 s5 s6 t1 t2 t3 t4 t5 t6 : list (edit A),
      (forall e1 e2, In e1 (s1 ++ s2 ++ s3 ++ s4 ++ s5 ++ s6) -> In e2 (t1 ++ t2 ++ t3 ++ t4 ++ t5 ++ t6) ->
                     phase e2 < phase e1 -> indep e2 e1) ->
      (forall e, In e t1 -> phase e = 1) -> (forall e, In e t2 -> phase e = 2) -> (forall e, In e t3 -> phase e = 3) ->
      (forall e, In e t4 -> phase e = 4) -> (forall e, In e t5 -> phase e = 5) ->
      (forall e, In e s2 -> phase e = 2) -> (forall e, In e s3 -> phase e = 3) -> (forall e, In e s4 -> phase e = 4) ->
      (forall e, In e s5 -> phase e = 5) -> (forall e, In e s6 -> phase e = 6) ->
      forall m, same_verdict
        (edits (s1 ++ t1 ++ s2 ++ t2 ++ s3 ++ t3 ++ s4 ++ t4 ++ s5 ++ t5 ++ s6 ++ t6) m)
        (edits (s1 ++ s2 ++ s3 ++ s4 ++ s5 ++ s6 ++ t1 ++ t2 ++ t3 ++ t4 ++ t5 ++ t6) m)).
    { clear - Sw. intros s1 s2 s3 s4 s5 s6 t1 t2 t3 t4 t5 t6 HI P1 P2 P3 P4 P5 Q2 Q3 Q4 Q5 Q6 m.
      apply edits_same_prefix. clear m; intros m.
      assert (HI' : forall S T, (forall e, In e S -> In e (s1 ++ s2 ++ s3 ++ s4 ++ s5 ++ s6)) ->
                                (forall e, In e T -> In e (t1 ++ t2 ++ t3 ++ t4 ++ t5 ++ t6)) ->
                                (forall e1 e2, In e1 T -> In e2 S -> phase e1 < phase e2) ->
                                forall e1 e2, In e1 T -> In e2 S -> indep e1 e2) by (intros; apply HI; auto).
      Ltac ph := let I1 := fresh in let I2 := fresh in intros ? ? I1 I2; rewrite ?in_app_iff in I1; rewrite ?in_app_iff in I2;
        repeat match goal with H : _ \/ _ |- _ => destruct H end;
        repeat match goal with H : In _ ?l, P : forall e, In e ?l -> _ |- _ => apply P in H end; lia.
      apply same_verdict_trans with (edits (s2 ++ (t1 ++ t2) ++ s3 ++ t3 ++ s4 ++ t4 ++ s5 ++ t5 ++ s6 ++ t6) m).
      { rewrite <- (app_assoc t1). apply Sw. apply HI'; [intros; rewrite !in_app_iff; tauto..|ph]. }
      apply edits_same_prefix. clear m; intros m.
      apply same_verdict_trans with (edits (s3 ++ ((t1 ++ t2) ++ t3) ++ s4 ++ t4 ++ s5 ++ t5 ++ s6 ++ t6) m).
      { rewrite <- (app_assoc (t1 ++ t2)). apply Sw. apply HI'; [intros; rewrite !in_app_iff in *; tauto..|ph]. }
      apply edits_same_prefix. clear m; intros m.
      apply same_verdict_trans with (edits (s4 ++ (((t1 ++ t2) ++ t3) ++ t4) ++ s5 ++ t5 ++ s6 ++ t6) m).
      { rewrite <- (app_assoc ((t1 ++ t2) ++ t3)). apply Sw. apply HI'; [intros; rewrite !in_app_iff in *; tauto..|ph]. }
      apply edits_same_prefix. clear m; intros m.
      apply same_verdict_trans with (edits (s5 ++ ((((t1 ++ t2) ++ t3) ++ t4) ++ t5) ++ s6 ++ t6) m).
      { rewrite <- (app_assoc (((t1 ++ t2) ++ t3) ++ t4)). apply Sw. apply HI'; [intros; rewrite !in_app_iff in *; tauto..|ph]. }
      apply edits_same_prefix. clear m; intros m.
      apply same_verdict_trans with (edits (s6 ++ (((((t1 ++ t2) ++ t3) ++ t4) ++ t5) ++ t6)) m).
      { apply Sw. apply HI'; [intros; rewrite !in_app_iff in *; tauto..|ph]. }
      rewrite <- !app_assoc. apply same_verdict_refl. }
    apply Key; assumption. }
  rewrite edits_app in V.
  destruct (edits (edits_of s) (abs d)) as [m1| |] eqn:E1.
  - destruct S as (d1 & -> & Hd1 & Hg1). cbn [obind].
    pose proof (sel_apply_spec t d1 Ht Hd1) as T.
    assert (V' : same_verdict (edits (edits_of (fst (sel_merge2 s t))) (abs d)) (edits (edits_of t) (abs d1))).
    { eapply same_verdict_trans; [exact V|]. apply edits_ext_same. intros k. symmetry. apply Hg1. }
    clear V. destruct (edits (edits_of t) (abs d1)) as [m2| |] eqn:E2;
      destruct (edits (edits_of (fst (sel_merge2 s t))) (abs d)) as [m3| |]; simpl in V'; try tauto.
    + destruct T as (d2 & -> & _ & Hg2). destruct M as (d3 & -> & _ & Hg3).
      intros k. now rewrite Hg2, Hg3, V'.
    + now rewrite M, T.
    + now rewrite M, T.
    + now rewrite M, T.
    + now rewrite M, T.
  - rewrite S. cbn [obind]. destruct (edits (edits_of (fst (sel_merge2 s t))) (abs d)); simpl in V; try tauto; now rewrite M.
  - rewrite S. cbn [obind]. destruct (edits (edits_of (fst (sel_merge2 s t))) (abs d)); simpl in V; try tauto; now rewrite M.
Qed.

Lemma c45_merge_is_sequential_partial_proof :
  forall (A : Type) (s t : sel A) (d : dict A), reachable s -> reachable t -> dict_ok d ->
  (forall k, In k (mentioned s) -> In k (mentioned t) -> False) ->
  match sel_apply (fst (sel_merge2 s t)) d, (do d1 <- sel_apply s d; sel_apply t d1) with
  | Ok d1, Ok d2 => forall k, dget k d1 = dget k d2
  | Raise _, Raise _ => True
  | _, _ => False
  end.
Proof.
  intros A s t d Hs Ht Hd Hdis. apply c45_in_order_partial_proof; auto.
  intros e e' He He' _ k Hk Hk'. apply (Hdis k); [now apply (documented_mentioned s e)|now apply (documented_mentioned t e')].
Qed.

Lemma c45_after_removing_partial_proof :
  forall (A : Type) (s t : sel A) (d : dict A), reachable s -> reachable t -> dict_ok d ->
  (forall e, In e (documented_edits s) -> exists k, e = Remove k) ->
  match sel_apply (fst (sel_merge2 s t)) d, (do d1 <- sel_apply s d; sel_apply t d1) with
  | Ok d1, Ok d2 => forall k, dget k d1 = dget k d2
  | Raise _, Raise _ => True
  | _, _ => False
  end.
Proof.
  intros A s t d Hs Ht Hd Hr. apply c45_in_order_partial_proof; auto.
  intros e e' He He' Hp. destruct (Hr e He) as (k & ->). destruct e'; cbn in Hp; lia.
Qed.

Lemma c45_merge_is_sequential_refuted_proof :
  exists (s t : sel nat) (d d2 : dict nat), reachable s /\ reachable t /\ dict_ok d /\
  (do d1 <- sel_apply s d; sel_apply t d1) = Ok d2 /\
  sel_apply (fst (sel_merge2 s t)) d = Raise (mkexc KeyError "k").
Proof.
  exists (sel_init (PMap [("k", 1)]) (PMap []) (NIter (Reiter [])) (NIter (Reiter [])) (PMap []) (PMap [])).
  exists (sel_init (PMap []) (PMap []) (NStr "k") (NIter (Reiter [])) (PMap []) (PMap [])).
  exists [("a", 7)], [("a", 7)].
  split; [|split; [|split; [|split]]].
  - constructor. repeat split; reflexivity.
  - constructor. repeat split; reflexivity.
  - repeat constructor. intros [].
  - vm_compute. reflexivity.
  - vm_compute. reflexivity.
Qed.

Lemma c46_dict_argument_refuted_proof :
  exists (s : sel nat) (d : dict nat), reachable s /\ dict_ok d /\
  fst (sel_call_mapping s true d) = Raise (mkexc KeyError "z") /\ snd (sel_call_mapping s true d) <> d.
Proof.
  exists (sel_init (PMap []) (PMap []) (NIter (Reiter ["x"; "z"])) (NIter (Reiter [])) (PMap []) (PMap [])).
  exists [("x", 1); ("y", 2)].
  split; [|split; [|split]].
  - constructor. repeat split; reflexivity.
  - repeat constructor; simpl; intuition discriminate.
  - vm_compute. reflexivity.
  - vm_compute. discriminate.
Qed.

Lemma c47_reusable_partial_proof :
  forall (A : Type) (s s' : sel A) (d : dict A), reachable s -> used s s' -> sel_apply s' d = sel_apply s d.
Proof.
  intros A s s' d Hs Hu.
  assert (H : reachable s' /\ lists s' = lists s).
  { induction Hu as [|s' d0 _ [R L] Hd0|s' _ [R L]]; auto.
    - split; [now constructor|]. rewrite <- L.
      apply reachable_ok in R as [R B]. pose proof (sel_call_agrees s' d0 R B Hd0) as E.
      destruct (sel_call s' d0) as [[o d'] s'']. destruct E as [_ ->]. simpl. apply lists_set_bool.
    - split; [now constructor|]. rewrite <- L.
      apply reachable_ok in R as [R B]. rewrite (sel_truth_stable s' R B). simpl. apply lists_set_bool. }
  destruct H. apply sel_apply_lists; auto.
Qed.

Lemma c47_one_shot_refuted_proof :
  let gen := sel_init (PMap []) (PMap []) (NIter (OneShot ["x"; "y"])) (NIter (Reiter [])) (PMap []) (PMap []) in
  let lst := sel_init (PMap []) (PMap []) (NIter (Reiter ["x"; "y"])) (NIter (Reiter [])) (PMap []) (PMap []) in
  let d := [("x", 1); ("y", 2); ("z", 3)] in
  sel_apply lst d = Ok [("z", 3)] /\
  sel_apply gen d = Ok [("x", 1); ("z", 3)] /\
  sel_apply (snd (sel_call gen d)) d = Ok d.
Proof.
  vm_compute. auto.
Qed.

Ltac skip_nil := repeat (match goal with |- context [@for_each ?A ?X ?b [] ?d] => change (@for_each A X b [] d) with (Ok tt, d, @nil X) end; cbn -[for_each]).
Lemma for_each_done : forall {A X} (b : X -> dict A -> outcome unit * dict A) l d u d' r, for_each b l d = (Ok u, d', r) -> r = [].
Proof. intros A X b l. induction l as [|x l IH]; intros d u d' r H; cbn in H; [congruence|]. destruct (b x d) as [[v|e] d2]; [exact (IH _ _ _ _ H)|discriminate]. Qed.

Lemma c47_generators_refuted_proof : forall (A : Type) (d : dict A),
  (forall (x : string * A) l, let gen := sel_init (PIter (OneShot (x :: l))) (PIter (Reiter [])) (NIter (Reiter [])) (NIter (Reiter [])) (PIter (Reiter [])) (PIter (Reiter [])) in
     sel_apply gen d = sel_apply (sel_init (PIter (Reiter l)) (PIter (Reiter [])) (NIter (Reiter [])) (NIter (Reiter [])) (PIter (Reiter [])) (PIter (Reiter []))) d /\
     (forall d1, sel_apply gen d = Ok d1 -> forall d2, sel_apply (snd (sel_call gen d)) d2 = Ok d2)) /\
  (forall (x : string * A) l, let gen := sel_init (PIter (Reiter [])) (PIter (OneShot (x :: l))) (NIter (Reiter [])) (NIter (Reiter [])) (PIter (Reiter [])) (PIter (Reiter [])) in
     sel_apply gen d = sel_apply (sel_init (PIter (Reiter [])) (PIter (Reiter l)) (NIter (Reiter [])) (NIter (Reiter [])) (PIter (Reiter [])) (PIter (Reiter []))) d /\
     (forall d1, sel_apply gen d = Ok d1 -> forall d2, sel_apply (snd (sel_call gen d)) d2 = Ok d2)) /\
  (forall (x : string) l, let gen := sel_init (PIter (Reiter [])) (PIter (Reiter [])) (NIter (OneShot (x :: l))) (NIter (Reiter [])) (PIter (Reiter [])) (PIter (Reiter [])) in
     sel_apply gen d = sel_apply (sel_init (PIter (Reiter [])) (PIter (Reiter [])) (NIter (Reiter l)) (NIter (Reiter [])) (PIter (Reiter [])) (PIter (Reiter []))) d /\
     (forall d1, sel_apply gen d = Ok d1 -> forall d2, sel_apply (snd (sel_call gen d)) d2 = Ok d2)) /\
  (forall (x : string) l, let gen := sel_init (PIter (Reiter [])) (PIter (Reiter [])) (NIter (Reiter [])) (NIter (OneShot (x :: l))) (PIter (Reiter [])) (PIter (Reiter [])) in
     sel_apply gen d = sel_apply (sel_init (PIter (Reiter [])) (PIter (Reiter [])) (NIter (Reiter [])) (NIter (Reiter l)) (PIter (Reiter [])) (PIter (Reiter []))) d /\
     (forall d1, sel_apply gen d = Ok d1 -> forall d2, sel_apply (snd (sel_call gen d)) d2 = Ok d2)) /\
  (forall (x : string * string) l, let gen := sel_init (PIter (Reiter [])) (PIter (Reiter [])) (NIter (Reiter [])) (NIter (Reiter [])) (PIter (OneShot (x :: l))) (PIter (Reiter [])) in
     sel_apply gen d = sel_apply (sel_init (PIter (Reiter [])) (PIter (Reiter [])) (NIter (Reiter [])) (NIter (Reiter [])) (PIter (Reiter l)) (PIter (Reiter []))) d /\
     (forall d1, sel_apply gen d = Ok d1 -> forall d2, sel_apply (snd (sel_call gen d)) d2 = Ok d2)) /\
  (forall (x : string * string) l, let gen := sel_init (PIter (Reiter [])) (PIter (Reiter [])) (NIter (Reiter [])) (NIter (Reiter [])) (PIter (Reiter [])) (PIter (OneShot (x :: l))) in
     sel_apply gen d = sel_apply (sel_init (PIter (Reiter [])) (PIter (Reiter [])) (NIter (Reiter [])) (NIter (Reiter [])) (PIter (Reiter [])) (PIter (Reiter l))) d /\
     (forall d1, sel_apply gen d = Ok d1 -> forall d2, sel_apply (snd (sel_call gen d)) d2 = Ok d2)).
Proof.
  intros A d.
  repeat apply conj; intros x l gen; subst gen; (split;
    [destruct l as [|y l]; [reflexivity|]; unfold sel_apply, sel_call_mapping, sel_call; cbn -[for_each]; skip_nil;
     match goal with |- context [for_each ?b (y :: l) ?e] => destruct (for_each b (y :: l) e) as [[[u|u] d'] r] end; reflexivity
    |unfold sel_apply, sel_call_mapping, sel_call; cbn -[for_each]; skip_nil;
     match goal with |- context [for_each ?b l ?e] => destruct (for_each b l e) as [[[u|u] d'] r] eqn:E end; cbn; intros d1 H; [|discriminate H];
     apply for_each_done in E; subst r; reflexivity]).
Qed.

Lemma c48_maybe_rename_skips_refuted_proof :
  forall (A : Type) (d : dict A) (old new : string), dget old d <> None -> dget new d <> None ->
  sel_apply (sel_init (PMap []) (PMap []) (NIter (Reiter [])) (NIter (Reiter [])) (PMap []) (PMap [(old, new)])) d
  = Raise (mkexc ValueError ("key " ++ new ++ " cannot be overridden in map")).
Proof.
  intros A d old new Ho Hn. unfold sel_apply, sel_call_mapping, sel_call. cbn. unfold dmem.
  destruct (dget old d); [|congruence]. cbn. destruct (dget new d); [|congruence]. reflexivity.
Qed.

Lemma c48_maybe_rename_skips_partial_proof :
  forall (A : Type) (d : dict A) (old new : string),
  let s := sel_init (PMap []) (PMap []) (NIter (Reiter [])) (NIter (Reiter [])) (PMap []) (PMap [(old, new)]) in
  (dget old d = None -> sel_apply s d = Ok d) /\
  (forall v, dict_ok d -> dget old d = Some v -> dget new d = None -> exists d', sel_apply s d = Ok d' /\
     dget new d' = Some v /\ dget old d' = None /\ forall k, k <> old -> k <> new -> dget k d' = dget k d).
Proof.
  intros A d old new. cbn zeta. split.
  - intros H. unfold sel_apply, sel_call_mapping, sel_call. cbn. unfold dmem. rewrite H. reflexivity.
  - intros v D H N. set (s := sel_init _ _ _ _ _ _).
    assert (R : reachable s) by (constructor; repeat split; reflexivity).
    pose proof (sel_apply_spec s d R D) as S.
    change (edits_of s) with [@MaybeRename A old new] in S. cbn in S. unfold abs in S. rewrite H, N in S.
    destruct S as (d' & E & D' & G). exists d'. split; auto. rewrite !G. unfold fput.
    rewrite String.eqb_refl. assert (old <> new) by congruence.
    split; auto. split.
    + destruct (String.eqb_spec old new); [contradiction|]. now rewrite String.eqb_refl.
    + intros k K1 K2. rewrite G. unfold fput. destruct (String.eqb_spec k new); [contradiction|].
      destruct (String.eqb_spec k old); [contradiction|]. reflexivity.
Qed.

Lemma renaming_reachable {A} r : reachable (@renaming A r).
Proof. constructor. repeat split; reflexivity. Qed.

Lemma edits_of_renaming {A} r : edits_of (@renaming A r) = map (fun p => Rename (fst p) (snd p)) r.
Proof. unfold edits_of, renaming. simpl. now rewrite app_nil_r. Qed.

(** running a list of renames with distinct sources and fresh, distinct targets *)
Lemma rename_run {A} (r : list (string * string)) : forall (m : fmap A),
  NoDup (map fst r) -> NoDup (map snd r) ->
  (forall k, In k (map fst r) -> m k <> None) ->
  (forall k, In k (map snd r) -> m k = None) ->
  exists m', edits (map (fun p => Rename (fst p) (snd p)) r) m = Done m' /\
    (forall k, ~ In k (map fst r) -> ~ In k (map snd r) -> m' k = m k) /\
    (forall o n, In (o, n) r -> m' n = m o) /\
    (forall k, In k (map fst r) -> m' k = None).
Proof.
  induction r as [|[o n] r IH]; intros m Hs Ht Ho Hn; simpl in *.
  - exists m. repeat split; auto; tauto.
  - inversion Hs as [|? ? Hs1 Hs2]; inversion Ht as [|? ? Ht1 Ht2]; subst.
    rewrite (Hn n) by auto. destruct (m o) as [v|] eqn:Eo; [|exfalso; apply (Ho o); auto].
    assert (Hon : o <> n) by (intros ->; rewrite (Hn n) in Eo by auto; discriminate).
    destruct (IH (fput n (Some v) (fput o None m))) as (m' & E & F & G & K); auto.
    + intros k Hk. unfold fput. destruct (String.eqb_spec k n); [congruence|].
      destruct (String.eqb_spec k o); [subst; tauto|]. apply Ho. auto.
    + intros k Hk. unfold fput. destruct (String.eqb_spec k n); [subst; tauto|].
      destruct (String.eqb_spec k o); auto.
    + exists m'. split; [exact E|]. split; [|split].
      * intros k H1 H2. rewrite F by tauto. unfold fput.
        destruct (String.eqb_spec k n); [subst; tauto|]. destruct (String.eqb_spec k o); [subst; tauto|auto].
      * intros o' n' [E1|Hi].
        -- injection E1 as <- <-. rewrite F; auto.
           ++ unfold fput. rewrite String.eqb_refl. now symmetry.
           ++ intros Hc. apply (Ho n); auto.
        -- rewrite (G o' n' Hi). unfold fput.
           assert (In o' (map fst r)) by (apply in_map_iff; now exists (o', n')).
           destruct (String.eqb_spec o' n); [exfalso; subst; apply (Ho n); auto|].
           destruct (String.eqb_spec o' o); [subst; tauto|auto].
      * intros k [<-|Hk]; auto.
        destruct (in_dec string_dec o (map snd r)) as [Hi|Hi].
        -- exfalso. rewrite (Hn o) in Eo by auto. discriminate.
        -- rewrite F by auto. unfold fput. apply String.eqb_neq in Hon. now rewrite Hon, String.eqb_refl.
Qed.

Lemma c37_rename_roundtrip_proof :
  forall (A : Type) (r : list (string * string)) (d : dict A), dict_ok d ->
  NoDup (map fst r) -> NoDup (map snd r) ->
  (forall k, In k (map fst r) -> In k (keys d)) ->
  (forall k, In k (map snd r) -> ~ In k (keys d)) ->
  exists d1 d2, sel_apply (renaming r) d = Ok d1 /\ sel_apply (renaming (map swap r)) d1 = Ok d2 /\
    (forall old new, In (old, new) r -> dget new d1 = dget old d) /\
    dict_ok d2 /\ forall k, dget k d2 = dget k d.
Proof.
  intros A r d Hd Hs Ht Ho Hn.
  destruct (rename_run r (abs d)) as (m1 & E1 & F1 & G1 & K1); auto.
  { intros k Hk. apply Ho in Hk. apply in_keys_get in Hk as [v Hv]. unfold abs. congruence. }
  { intros k Hk. apply Hn in Hk. now apply dget_None. }
  pose proof (sel_apply_spec _ d (renaming_reachable r) Hd) as S1. rewrite edits_of_renaming, E1 in S1.
  destruct S1 as (d1 & A1 & D1 & H1).
  assert (Es : map fst (map swap r) = map snd r) by (rewrite map_map; reflexivity).
  assert (Et : map snd (map swap r) = map fst r) by (rewrite map_map; reflexivity).
  destruct (rename_run (map swap r) (abs d1)) as (m2 & E2 & F2 & G2 & K2); rewrite ?Es, ?Et in *; auto.
  { intros k Hk. apply in_map_iff in Hk as ([o n] & <- & Hi). simpl. unfold abs. rewrite H1, (G1 o n Hi).
    assert (In o (keys d)) as Hk by (apply Ho, in_map_iff; now exists (o, n)).
    apply in_keys_get in Hk as [v Hv]. unfold abs. congruence. }
  { intros k Hk. unfold abs. rewrite H1. now apply K1. }
  pose proof (sel_apply_spec _ d1 (renaming_reachable (map swap r)) D1) as S2. rewrite edits_of_renaming, E2 in S2.
  destruct S2 as (d2 & A2 & D2 & H2).
  exists d1, d2. split; [|split; [|split; [|split]]]; auto.
  - intros o n Hi. rewrite H1. now apply G1.
  - intros k. rewrite H2. destruct (in_dec string_dec k (map fst r)) as [Hk|Hk].
    + apply in_map_iff in Hk as ([o n] & <- & Hi). simpl.
      rewrite (G2 n o) by (apply in_map_iff; now exists (o, n)). unfold abs. rewrite H1. now apply G1.
    + destruct (in_dec string_dec k (map snd r)) as [Hk2|Hk2].
      * rewrite K2 by auto. symmetry. apply dget_None. now apply Hn.
      * rewrite F2 by auto. unfold abs. rewrite H1. now apply F1.
Qed.

Lemma c35_factory_selects_accumulate_proof :
  forall (A D C : Type) (b b1 b2 : bound_factory A D C) (s1 s2 : sel A) (d : dict A),
  reachable (bf_select b) -> reachable s1 -> reachable s2 ->
  bf_do_select b [s1] None = Ok b1 -> bf_do_select b1 [s2] None = Ok b2 ->
  (exists b', bf_do_select b [s1; s2] None = Ok b' /\ sel_apply (bf_select b2) d = sel_apply (bf_select b') d) /\
  (exists b', bf_do_select b [fst (sel_merge2 s1 s2)] None = Ok b' /\ sel_apply (bf_select b2) d = sel_apply (bf_select b') d) /\
  bf_descriptor b2 = bf_descriptor b /\ bf_owner b2 = bf_owner b.
Proof.
  intros A D C b b1 b2 s1 s2 d Hb H1 H2 E1 E2.
  unfold bf_do_select in *. cbn in *. injection E1 as <-. cbn in *. injection E2 as <-. cbn.
  split; [|split; [|split]]; auto.
  - eexists; split; reflexivity.
  - eexists; split; [reflexivity|]. cbn. now apply c44_merge_assoc_proof.
Qed.

Lemma c35_export_with_accumulates_proof :
  forall (A D C X : Type) (b : bound_exporter A D C X) (a1 a2 : list X) (k1 k2 : dict X), dict_ok k1 -> dict_ok k2 ->
  let b2 := be_export_with (be_export_with b a1 k1) a2 k2 in
  be_args b2 = be_args b ++ a1 ++ a2 /\
  (forall k, dget k (be_kwargs b2) =
     match dget k k2 with Some v => Some v | None =>
     match dget k k1 with Some v => Some v | None => dget k (be_kwargs b) end end) /\
  be_select b2 = be_select b /\ be_owner b2 = be_owner b.
Proof.
  intros A D C X b a1 a2 k1 k2 H1 H2. cbn. split; [|split; [|split]]; auto.
  - now rewrite <- app_assoc.
  - intros k. rewrite !dget_dupdate by auto. destruct (dget k k2); auto.
Qed.

(** ** Chains of configuration calls on an exporter *)

(** one call in the chain: [.select( *ss, **kw)] or [.export_with( *args, **kw)] *)
Inductive config (A X : Type) :=
| Selecting (ss : list (sel A)) (kw : option (sel A))
| Exporting (args : list X) (kw : dict X).
Arguments Selecting {A X}.
Arguments Exporting {A X}.

(** a chain of calls, each on the object the one before returned; an error ends it *)
Fixpoint configure {A D C X} (b : bound_exporter A D C X) (l : list (config A X)) : outcome (bound_exporter A D C X) :=
  match l with
  | [] => Ok b
  | Selecting ss kw :: r => match be_do_select b ss kw with Ok b' => configure b' r | Raise e => Raise e end
  | Exporting args kw :: r => configure (be_export_with b args kw) r
  end.

(** what the calls of a chain mention: the Selects, the positional and the
    keyword export arguments, in order *)
Definition selects_in {A X} (l : list (config A X)) : list (sel A) :=
  flat_map (fun c => match c with
                     | Selecting ss kw => ss ++ match kw with Some k => [k] | None => [] end
                     | Exporting _ _ => [] end) l.
Definition args_in {A X} (l : list (config A X)) : list X :=
  flat_map (fun c => match c with Exporting a _ => a | Selecting _ _ => [] end) l.
Definition kwargs_in {A X} (l : list (config A X)) : list (string * X) :=
  flat_map (fun c => match c with Exporting _ k => k | Selecting _ _ => [] end) l.
(** the last binding of a name *)
Definition last_binding {X} (k : string) (l : list (string * X)) : option X := dget k (rev l).

(** the six lists of edits of all the Selects, one Select after the other *)
Definition all_edits {A} (l : list (sel A)) :=
  (flat_map (fun t => elements (s_rem t)) l, flat_map (fun t => elements (s_mrem t)) l,
   flat_map (fun t => elements (s_ren t)) l, flat_map (fun t => elements (s_mren t)) l,
   flat_map (fun t => elements (s_add t)) l, flat_map (fun t => elements (s_madd t)) l).

Lemma dget_app_binding {X} k (l r : list (string * X)) :
  dget k (l ++ r) = match dget k l with Some v => Some v | None => dget k r end.
Proof. induction l as [|[a b] l IH]; cbn; auto. destruct (String.eqb k a); auto. Qed.

Lemma dget_rev_ok {X} k (d : dict X) : dict_ok d -> dget k (rev d) = dget k d.
Proof.
  unfold dict_ok. induction d as [|[a b] d IH]; cbn; auto. intros H. inversion H; subst.
  rewrite dget_app_binding, IH by auto. cbn. destruct (String.eqb k a) eqn:E.
  - apply String.eqb_eq in E. subst. destruct (dget a d) eqn:G; auto.
    exfalso. apply H2. assert (dget a d <> None) by congruence. destruct (in_dec string_dec a (map fst d)); auto.
    exfalso. apply H0. now apply dget_None.
  - now destruct (dget k d).
Qed.

Lemma configure_all {A D C X} (l : list (config A X)) : forall (b b' : bound_exporter A D C X) (done : list (sel A)),
  reachable (be_select b) -> lists (be_select b) = all_edits done ->
  Forall reachable (selects_in l) -> (forall a k, In (Exporting a k) l -> dict_ok k) ->
  configure b l = Ok b' ->
  be_descriptor b' = be_descriptor b /\ be_owner b' = be_owner b /\
  be_args b' = be_args b ++ args_in l /\
  (forall k, dget k (be_kwargs b') = match last_binding k (kwargs_in l) with Some v => Some v | None => dget k (be_kwargs b) end) /\
  lists (be_select b') = all_edits (done ++ selects_in l) /\ reachable (be_select b').
Proof.
  induction l as [|[ss kw|a k] l IH]; intros b b' done Hr Hl Hs Hk H; cbn in H.
  - injection H as <-. cbn. rewrite !app_nil_r. repeat split; auto.
  - destruct (be_do_select b ss kw) as [b1|e] eqn:E; [|discriminate].
    unfold be_do_select, bind in E. destruct (sel_merge (be_select b) ss kw) as [s|e] eqn:M; [|discriminate]. injection E as <-.
    unfold selects_in in Hs. cbn [flat_map] in Hs. apply Forall_app in Hs as [Hs Hs']. apply Forall_app in Hs as [Hs Hsk].
    destruct (c44_merge_is_fold_proof A (be_select b) s ss kw) as [L R]; auto.
    { intros x ->. now inversion Hsk. }
    destruct (IH (BoundExporter (be_descriptor b) (be_owner b) (be_args b) (be_kwargs b) s) b'
                 (done ++ ss ++ match kw with Some k => [k] | None => [] end)) as (? & ? & ? & ? & ? & ?); auto.
    { cbn. rewrite L. cbn [flat_map]. unfold lists, all_edits in Hl |- *. injection Hl as -> -> -> -> -> ->.
      now rewrite !flat_map_app. }
    { intros. eapply Hk. now right; eauto. }
    cbn in *. repeat split; auto. unfold selects_in in *. cbn [flat_map]. rewrite <- !app_assoc in *. auto.
  - destruct (IH (be_export_with b a k) b' done) as (? & ? & Ha & Hg & ? & ?); auto.
    { intros. eapply Hk. now right; eauto. }
    cbn in *. repeat split; auto.
    + rewrite Ha. now rewrite <- app_assoc.
    + intros q. rewrite Hg. unfold last_binding. cbn. unfold kwargs_in. cbn [flat_map].
      rewrite rev_app_distr, dget_app_binding. destruct (dget q (rev (flat_map _ l))); auto.
      assert (Ok' : dict_ok k) by (eapply Hk; now left).
      rewrite dget_rev_ok by auto. now rewrite dget_dupdate by auto.
Qed.

Lemma c35_exporter_chain_proof :
  forall (A D C X : Type) (d : D) (owner : C) (l : list (config A X)) (b : bound_exporter A D C X) (m : dict A),
  Forall reachable (selects_in l) -> (forall a k, In (Exporting a k) l -> dict_ok k) ->
  configure (be_get d owner) l = Ok b ->
  be_descriptor b = d /\ be_owner b = owner /\ be_args b = args_in l /\
  (forall k, dget k (be_kwargs b) = last_binding k (kwargs_in l)) /\
  (forall s, sel_merge sel_empty (sel_empty :: selects_in l) None = Ok s -> sel_apply (be_select b) m = sel_apply s m).
Proof.
  intros A D C X d owner l b m Hs Hk H.
  assert (He : reachable (@sel_empty A)) by (constructor; repeat split; reflexivity).
  destruct (configure_all l (be_get d owner) b []) as (? & ? & ? & Hg & L & R); auto.
  cbn in *. repeat split; auto.
  - intros k. rewrite Hg. now destruct (last_binding k (kwargs_in l)).
  - intros s M. destruct (c44_merge_is_fold_proof A sel_empty s (sel_empty :: selects_in l) None) as [L' R']; auto.
    { intros k Hn; discriminate Hn. }
    apply sel_apply_lists; auto. rewrite L, L', app_nil_r. reflexivity.
Qed.

Lemma c35_unconfigured_proof :
  forall (A D C X : Type) (d : D) (owner : C) (m : dict A),
  let f := @bf_get A D C d owner in let b := @be_get A D C X d owner in
  fst (sel_truth (bf_select f)) = false /\ sel_apply (bf_select f) m = Ok m /\
  bf_descriptor f = d /\ bf_owner f = owner /\
  fst (sel_truth (be_select b)) = false /\ sel_apply (be_select b) m = Ok m /\
  be_descriptor b = d /\ be_owner b = owner /\ be_args b = [] /\ be_kwargs b = [].
Proof.
 intros. cbn. repeat split; reflexivity. Qed.

Lemma c35_noarg_exporter_call_proof :
  forall (A D C X : Type) (b : bound_exporter A D C X) (a a' : list X) (k k' : dict X),
  be_call_args true (be_export_with b a k) a' k' = be_call_args true (be_export_with (be_export_with b a k) a' k') [] []
  /\ be_call_args false b a' k' = ((be_args b, be_kwargs b), (a', k')).
Proof.
  intros. cbn. rewrite app_nil_r. split; reflexivity.
Qed.

Lemma c35_select_leaves_operands_proof :
  forall (A : Type) (s t : sel A) (d : dict A), reachable s -> reachable t ->
  let '(r, (s', t')) := sel_merge2 s t in
  sel_apply s' d = sel_apply s d /\ sel_apply t' d = sel_apply t d.
Proof.
  intros A s t d Hs Ht. apply reachable_ok in Hs as [Ss Bs], Ht as [St Bt].
  assert (Cl : forall u v : sel A, stable u -> bool_ok u -> stable v -> bool_ok v -> lists u = lists v -> sel_apply u d = sel_apply v d).
  { intros u v Su Bu Sv Bv L. pose proof (sel_call_lists u v d Su Bu Sv Bv L) as E.
    unfold sel_apply, sel_call_mapping. destruct (sel_call u d) as [[? ?] ?], (sel_call v d) as [[? ?] ?].
    simpl in E. injection E as -> ->. reflexivity. }
  assert (Sb : forall u : sel A, stable u -> bool_ok u ->
    stable (set_bool u (Some (match edits_of u with [] => false | _ => true end))) /\
    bool_ok (set_bool u (Some (match edits_of u with [] => false | _ => true end)))).
  { intros u Su _. split; [now apply stable_set_bool|]. unfold bool_ok. rewrite edits_of_set_bool. now destruct u. }
  assert (Dr : forall u : sel A, stable u -> sel_drain u = u).
  { intros [a ma r mr n mn b] (H1 & H2 & H3 & H4 & H5 & H6). simpl in *. now rewrite !leave_stable. }
  destruct (Sb s Ss Bs) as [S1 S2]. destruct (Sb t St Bt) as [T1 T2].
  unfold sel_merge2. rewrite (sel_truth_stable s Ss Bs), (sel_truth_stable t St Bt).
  destruct (edits_of s) eqn:Es; cbn [negb].
  - split; auto. apply Cl; auto. apply lists_set_bool.
  - destruct (edits_of t) eqn:Et; cbn [negb].
    + split; apply Cl; auto; apply lists_set_bool.
    + rewrite !Dr by auto. split; apply Cl; auto; apply lists_set_bool.
Qed.
