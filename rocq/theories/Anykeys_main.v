(** Anykeys_main.v -- proofs of the properties stated in Props_Anykeys.v: mappings with keys of any kind (records/select.py:8-143, records/record.py:431-449) *)

From Verif Require Import Base Py Select Filler Classes Runtime Record Spec_Record Anykeys Spec_Anykeys Demo DemoRt DemoCls.
From Verif Require Dict_proofs Record_proofs.
Open Scope string_scope.
Open Scope list_scope.

(** the edits of a Select, in the documented order *)
Definition edits_of {K A} (s : ksel K A) : list (key_edit K A) :=
  map Remove (ks_rem s) ++ map MaybeRemove (ks_mrem s) ++
  map (fun p => Rename (fst p) (snd p)) (ks_ren s) ++ map (fun p => MaybeRename (fst p) (snd p)) (ks_mren s) ++
  map (fun p => Add (fst p) (snd p)) (ks_add s) ++ map (fun p => MaybeAdd (fst p) (snd p)) (ks_madd s).
(** a Select that adds nothing, and whose first key to remove is None *)
Definition begins_with_none {K A} (is_none : K -> bool) (s : ksel K A) : Prop :=
  ks_add s = [] /\ ks_madd s = [] /\ exists k r, ks_rem s ++ ks_mrem s = k :: r /\ is_none k = true.
(** the keys a Select removes or renames *)
Definition taken {K A} (s : ksel K A) : list K := ks_rem s ++ ks_mrem s ++ map fst (ks_ren s) ++ map fst (ks_mren s).
(** keys that are strings are equal exactly to keys with the same text *)
Definition texts_agree {K} (keq : K -> K -> bool) (text : K -> option string) : Prop :=
  (forall a b, keq a b = true -> text a = text b) /\ (forall a b t, text a = Some t -> text b = Some t -> keq a b = true).
(** the value in the first mapping that has the key *)
Fixpoint first_value {K A} (keq : K -> K -> bool) (ds : list (list (K * A))) (k : K) : option A :=
  match ds with
  | [] => None
  | d :: r => match value_of keq d k with Some v => Some v | None => first_value keq r k end
  end.
(** a mapping and a Select with other keys *)
Definition relabel {K A} (name : K -> string) (d : list (K * A)) : dict A := map (fun kv => (name (fst kv), snd kv)) d.
Definition relabel_select {K A} (name : K -> string) (s : ksel K A) : sel A :=
  sel_init (PIter (Reiter (relabel name (ks_add s)))) (PIter (Reiter (relabel name (ks_madd s))))
           (NIter (Reiter (map name (ks_rem s)))) (NIter (Reiter (map name (ks_mrem s))))
           (PIter (Reiter (map (fun p => (name (fst p), name (snd p))) (ks_ren s))))
           (PIter (Reiter (map (fun p => (name (fst p), name (snd p))) (ks_mren s)))).
(** all keys in a mapping and a Select *)
Definition all_keys {K A} (s : ksel K A) (d : list (K * A)) : list K :=
  map fst d ++ taken s ++ map snd (ks_ren s) ++ map snd (ks_mren s) ++ map fst (ks_add s) ++ map fst (ks_madd s).

Section Eq.
Context {K A : Type} (keq : K -> K -> bool) (HE : key_equality keq).
Notation kget := (@kget K A keq).
Lemma keq_refl : forall k, keq k k = true. Proof. apply HE. Qed.
Lemma keq_sym : forall a b, keq a b = keq b a.
Proof. intros a b. destruct HE as (_ & S & _). destruct (keq a b) eqn:E, (keq b a) eqn:F; auto; [apply S in E|apply S in F]; congruence. Qed.
Lemma keq_same : forall a b c, keq a b = true -> keq a c = keq b c.
Proof.
  intros a b c H. destruct HE as (_ & S & T). destruct (keq a c) eqn:E, (keq b c) eqn:F; auto; exfalso.
  - apply S in H. rewrite (T _ _ _ H E) in F. discriminate.
  - rewrite (T _ _ _ H F) in E. discriminate.
Qed.
Lemma keq_same_r : forall a b c, keq a b = true -> keq c a = keq c b.
Proof. intros a b c H. rewrite (keq_sym c a), (keq_sym c b). apply keq_same. assumption. Qed.
Lemma kget_value : forall k d, kget k d = value_of keq d k.
Proof. intros k d. unfold value_of. induction d as [|[k' v] r IH]; simpl; [reflexivity|]. destruct (keq k k'); [reflexivity|exact IH]. Qed.
Lemma kget_same : forall a b d, keq a b = true -> kget a d = kget b d.
Proof. intros a b d H. induction d as [|[k v] r IH]; simpl; [reflexivity|]. rewrite (keq_same a b k H), IH. reflexivity. Qed.
Lemma kget_none : forall k d, (forall k', In k' (map fst d) -> keq k k' = false) <-> kget k d = None.
Proof.
  intros k d. induction d as [|[k' v] r IH]; simpl; [tauto|]. split.
  - intros H. rewrite (H k' (or_introl eq_refl)). apply IH. intros; apply H; auto.
  - destruct (keq k k') eqn:E; [discriminate|]. intros H k0 [<-|HI]; [assumption|]. apply (proj2 IH H). assumption.
Qed.
Lemma kget_set : forall k v d k', kget k' (kset keq k v d) = if keq k' k then Some v else kget k' d.
Proof.
  intros k v d k'. induction d as [|[k0 v0] r IH]; simpl; [destruct (keq k' k); reflexivity|].
  destruct (keq k k0) eqn:E; simpl.
  - rewrite (keq_same_r k k0 k' E). destruct (keq k' k0); reflexivity.
  - destruct (keq k' k0) eqn:F; [|exact IH]. destruct (keq k' k) eqn:G; [|reflexivity].
    rewrite (keq_same k' k k0 G) in F. congruence.
Qed.
Lemma kget_del : forall k d k', distinct keq (map fst d) -> kget k' (kdel keq k d) = if keq k' k then None else kget k' d.
Proof.
  intros k d k' HD. induction d as [|[k0 v0] r IH]; simpl; [destruct (keq k' k); reflexivity|].
  simpl in HD. inversion HD as [|? ? HN HR]; subst. destruct (keq k k0) eqn:E; simpl.
  - destruct (keq k' k) eqn:G.
    + apply kget_none. intros k1 H1. rewrite (keq_same k' k k1 G), (keq_same k k0 k1 E). apply HN. assumption.
    + destruct (keq k' k0) eqn:F; [|reflexivity]. rewrite (keq_same_r k k0 k' E) in G. congruence.
  - destruct (keq k' k0) eqn:F; [|exact (IH HR)]. destruct (keq k' k) eqn:G; [|reflexivity].
    rewrite (keq_same k' k k0 G) in F. congruence.
Qed.
Lemma keys_del : forall k (d : list (K * A)) k', In k' (map fst (kdel keq k d)) -> In k' (map fst d).
Proof. intros k d k'. induction d as [|[k0 v0] r IH]; simpl; [tauto|]. destruct (keq k k0); simpl; tauto. Qed.
Lemma keys_set : forall k v (d : list (K * A)) k', In k' (map fst (kset keq k v d)) -> k' = k \/ In k' (map fst d).
Proof. intros k v d k'. induction d as [|[k0 v0] r IH]; simpl; [intuition|]. destruct (keq k k0); simpl; intuition. Qed.
Lemma distinct_del : forall k (d : list (K * A)), distinct keq (map fst d) -> distinct keq (map fst (kdel keq k d)).
Proof.
  intros k d HD. induction d as [|[k0 v0] r IH]; simpl; [constructor|]. simpl in HD. inversion HD; subst.
  destruct (keq k k0); [assumption|]. simpl. constructor; [|apply IH; assumption]. intros k' HI. apply keys_del in HI. auto.
Qed.
Lemma distinct_set : forall k v (d : list (K * A)), distinct keq (map fst d) -> distinct keq (map fst (kset keq k v d)).
Proof.
  intros k v d HD. induction d as [|[k0 v0] r IH]; simpl; [repeat constructor; intros ? []|]. simpl in HD. inversion HD; subst.
  destruct (keq k k0) eqn:E; simpl; [constructor; assumption|]. constructor; [|apply IH; assumption].
  intros k' HI. apply keys_set in HI as [->|HI]; [rewrite keq_sym; assumption|auto].
Qed.
Definition Rel (d : list (K * A)) (m : K -> option A) : Prop := distinct keq (map fst d) /\ forall k, kget k d = m k.
Definition sim (o : outcome (list (K * A))) (v : key_verdict K A) : Prop :=
  match o with
  | Ok d => exists m, v = Done m /\ Rel d m
  | Raise e => (v = Missing /\ exc_cls e = KeyError) \/ (v = Occupied /\ exc_cls e = ValueError)
  end.
Lemma steps_sim : forall {X} (body : X -> list (K * A) -> outcome (list (K * A))) (e : X -> key_edit K A),
  (forall x d m, Rel d m -> sim (body x d) (key_step keq (e x) m)) ->
  forall l d m, Rel d m -> sim (steps body l d) (key_edits keq (map e l) m).
Proof.
  intros X body e HB l. induction l as [|x r IH]; simpl; intros d m HR; [exists m; auto|].
  pose proof (HB x d m HR) as H. destruct (body x d) as [d1|ex]; simpl in *.
  - destruct H as (m1 & -> & H1). apply IH. assumption.
  - destruct H as [[-> H]|[-> H]]; auto.
Qed.
Definition vthen (v : key_verdict K A) (l : list (key_edit K A)) : key_verdict K A :=
  match v with Done m' => key_edits keq l m' | x => x end.
Lemma sim_then : forall o v k l, sim o v -> (forall d m, Rel d m -> sim (k d) (key_edits keq l m)) ->
  sim (obind o k) (vthen v l).
Proof.
  intros [d|e] v k l H HK; simpl in *; [destruct H as (m & -> & H); apply HK; assumption|].
  destruct H as [[-> H]|[-> H]]; auto.
Qed.
Lemma key_edits_app : forall l1 l2 (m : K -> option A),
  key_edits keq (l1 ++ l2) m = vthen (key_edits keq l1 m) l2.
Proof. unfold vthen. induction l1 as [|e r IH]; simpl; intros; [reflexivity|]. destruct (key_step keq e m); auto. Qed.
Lemma rel_del : forall d m k, Rel d m -> Rel (kdel keq k d) (update keq k None m).
Proof. intros d m k [HD HR]. split; [apply distinct_del; assumption|]. intro k'. rewrite kget_del, HR by assumption. reflexivity. Qed.
Lemma rel_set : forall d m k v, Rel d m -> Rel (kset keq k v d) (update keq k (Some v) m).
Proof. intros d m k v [HD HR]. split; [apply distinct_set; assumption|]. intro k'. rewrite kget_set, HR. reflexivity. Qed.
Context (is_none : K -> bool) (show : K -> string).
Lemma truth_spec : forall s : ksel K A, ktruth is_none s = false <-> begins_with_none is_none s \/ edits_of s = [].
Proof.
  intros [a ma r mr n mn]. unfold ktruth, begins_with_none, edits_of. cbn.
  destruct a; cbn; [|split; [discriminate|intros [(H & _)|H]; [discriminate|]; destruct r, mr, n, mn; discriminate]].
  destruct ma; cbn; [|split; [discriminate|intros [(_ & H & _)|H]; [discriminate|]; destruct r, mr, n, mn; discriminate]].
  destruct r as [|k r]; cbn.
  - destruct mr as [|k mr]; cbn.
    + destruct n as [|? n]; cbn; [destruct mn as [|? mn]; cbn|].
      * split; auto.
      * split; [discriminate|intros [(_ & _ & k & r & H & _)|H]; discriminate].
      * split; [discriminate|intros [(_ & _ & k & r & H & _)|H]; discriminate].
    + split; [intro H; left; split; [reflexivity|split; [reflexivity|]]; exists k, mr; destruct (is_none k); [auto|discriminate]|].
      intros [(_ & _ & k' & r & H & H')|H]; [injection H as <- <-; rewrite H'; reflexivity|discriminate].
  - split; [intro H; left; split; [reflexivity|split; [reflexivity|]]; exists k, (r ++ mr); destruct (is_none k); [auto|discriminate]|].
    intros [(_ & _ & k' & r' & H & H')|H]; [injection H as <- <-; rewrite H'; reflexivity|discriminate].
Qed.
Lemma call_sim : forall (s : ksel K A) d m, ~ begins_with_none is_none s -> Rel d m ->
  sim (kcall keq is_none show s d) (key_edits keq (edits_of s) m).
Proof.
  intros s d m HN HR. unfold kcall. destruct (ktruth is_none s) eqn:ET; cbn [negb].
  2:{ apply truth_spec in ET as [ET|ET]; [contradiction|]. rewrite ET. exists m. auto. }
  unfold edits_of. rewrite key_edits_app. apply sim_then.
  { apply steps_sim; [|assumption]. clear - HE. intros k d m HR. unfold kremove, kmem. cbn. rewrite <- (proj2 HR).
    destruct (Anykeys.kget keq k d) eqn:E; cbn; [eexists; split; [reflexivity|apply rel_del; assumption]|auto]. }
  clear d m HR. intros d m HR. rewrite key_edits_app. apply sim_then.
  { apply steps_sim; [|assumption]. clear - HE. intros k d m HR. eexists. split; [reflexivity|]. apply rel_del. assumption. }
  clear d m HR. intros d m HR. rewrite key_edits_app.
  assert (HREN : forall p d m, Rel d m -> sim (krename keq show p d) (key_step keq (Rename (fst p) (snd p)) m)).
  { clear - HE. intros [o n] d m HR. unfold krename, kmem. cbn. rewrite <- !(proj2 HR).
    destruct (Anykeys.kget keq n d) eqn:E; cbn; [auto|]. destruct (Anykeys.kget keq o d) eqn:F; cbn; [|auto].
    eexists. split; [reflexivity|]. apply rel_set, rel_del. assumption. }
  apply sim_then.
  { apply steps_sim; [|assumption]. exact HREN. }
  clear d m HR. intros d m HR. rewrite key_edits_app. apply sim_then.
  { apply steps_sim; [|assumption]. clear d m HR. intros [o n] d m HR. pose proof (HREN (o, n) d m HR) as H. unfold kmrename, kmem in *. cbn in *.
    rewrite <- !(proj2 HR) in *. destruct (Anykeys.kget keq o d) eqn:F; cbn; [|exists m; auto].
    destruct (Anykeys.kget keq n d); exact H. }
  clear d m HR. intros d m HR. rewrite key_edits_app. apply sim_then.
  { apply steps_sim; [|assumption]. clear - HE. intros [k v] d m HR. unfold kadd, kmem. cbn. rewrite <- (proj2 HR).
    destruct (Anykeys.kget keq k d); cbn; [auto|]. eexists. split; [reflexivity|]. apply rel_set. assumption. }
  clear d m HR. intros d m HR. apply steps_sim; [|assumption]. clear - HE. intros [k v] d m HR. unfold kmadd, kmem. cbn. rewrite <- (proj2 HR).
  destruct (Anykeys.kget keq k d); cbn; [exists m; auto|]. eexists. split; [reflexivity|]. apply rel_set. assumption.
Qed.
End Eq.

Lemma c151_select_proof : forall {K A} (keq : K -> K -> bool) is_none show (s : ksel K A) d,
  key_equality keq -> distinct keq (map fst d) -> ~ begins_with_none is_none s ->
  match kcall keq is_none show s d with
  | Ok d' => distinct keq (map fst d') /\
             exists m, key_edits keq (edits_of s) (value_of keq d) = Done m /\ forall k, value_of keq d' k = m k
  | Raise e => (key_edits keq (edits_of s) (value_of keq d) = Missing /\ exc_cls e = KeyError) \/
               (key_edits keq (edits_of s) (value_of keq d) = Occupied /\ exc_cls e = ValueError)
  end.
Proof.
  intros K A keq is_none show s d HE HD HN.
  assert (HR : Rel keq d (value_of keq d)) by (split; [assumption|intro; apply kget_value]).
  pose proof (call_sim keq HE is_none show s d _ HN HR) as H. destruct (kcall keq is_none show s d) as [d'|e]; [|exact H].
  destruct H as (m & E & HD' & HM). split; [assumption|]. exists m. split; [assumption|]. intro k. rewrite <- kget_value. apply HM.
Qed.

Section Frame.
Context {K A : Type} (keq : K -> K -> bool) (HE : key_equality keq).
(** the keys an edit takes away *)
Definition takes (e : key_edit K A) : list K :=
  match e with Remove k | MaybeRemove k | Rename k _ | MaybeRename k _ => [k] | _ => [] end.
Lemma edits_keep : forall (l : list (key_edit K A)) m m' k, key_edits keq l m = Done m' ->
  (forall e o, In e l -> In o (takes e) -> keq k o = false) -> m k <> None -> m' k <> None.
Proof.
  assert (U : forall k v (m : K -> option A) k', keq k' k = false -> update keq k v m k' = m k') by (intros k v m k' H; unfold update; rewrite H; reflexivity).
  assert (S : forall k v (m : K -> option A) k', m k' <> None -> update keq k (Some v) m k' <> None) by (intros k v m k' H; unfold update; destruct (keq k' k); [discriminate|assumption]).
  intros l. induction l as [|e r IH]; intros m m' k H HT HM; simpl in H; [injection H as <-; assumption|].
  destruct (key_step keq e m) as [m1| |] eqn:E; try discriminate.
  apply (IH m1 m' k H); [intros; eapply HT; [right|]; eassumption|].
  assert (HO : forall o, In o (takes e) -> keq k o = false) by (intros o; apply HT; left; reflexivity).
  destruct e as [a|a|o n|o n|a v|a v]; simpl in *.
  - destruct (m a); [|discriminate]. injection E as <-. rewrite U; auto.
  - injection E as <-. rewrite U; auto.
  - destruct (m n); [discriminate|]. destruct (m o); [|discriminate]. injection E as <-. apply S. rewrite U; auto.
  - destruct (m o); [|injection E as <-; assumption]. destruct (m n); [discriminate|]. injection E as <-. apply S. rewrite U; auto.
  - destruct (m a); [discriminate|]. injection E as <-. apply S. assumption.
  - destruct (m a); injection E as <-; [assumption|]. apply S. assumption.
Qed.
Lemma takes_taken : forall (s : ksel K A) e o, In e (edits_of s) -> In o (takes e) -> In o (taken s).
Proof.
  intros s e o H HO. unfold edits_of in H. unfold taken. rewrite !in_app_iff, !in_map_iff in H. rewrite !in_app_iff, !in_map_iff.
  destruct H as [(k & <- & H)|[(k & <- & H)|[(p & <- & H)|[(p & <- & H)|[(p & <- & H)|(p & <- & H)]]]]]; simpl in HO; try contradiction; destruct HO as [<-|[]]; eauto 8.
Qed.
(** ChainMap *)
Lemma union_in : forall (d : list (K * A)) seen k, In k seen -> In k (kunion keq seen d).
Proof.
  unfold kunion. intros d. induction d as [|[k0 v0] r IH]; simpl; intros seen k H; [assumption|].
  apply IH. destruct (existsb _ _); [assumption|apply in_or_app; auto].
Qed.
Lemma union_has : forall (d : list (K * A)) seen k, In k (map fst d) -> exists k', In k' (kunion keq seen d) /\ keq k k' = true.
Proof.
  intros d. induction d as [|[k0 v0] r IH]; simpl; intros seen k H; [contradiction|]. destruct H as [<-|H].
  - destruct (existsb (keq k0) seen) eqn:E; unfold kunion; simpl; rewrite ?E.
    + apply existsb_exists in E as (k' & HI & HK). exists k'. split; [|assumption]. apply (union_in r). assumption.
    + exists k0. split; [|apply (keq_refl keq HE)]. apply (union_in r). apply in_or_app. right. left. reflexivity.
  - apply (IH (if existsb (keq k0) seen then seen else seen ++ [k0])) in H. exact H.
Qed.
Lemma union_only : forall (d : list (K * A)) seen k, In k (kunion keq seen d) -> In k seen \/ In k (map fst d).
Proof.
  intros d. induction d as [|[k0 v0] r IH]; simpl; intros seen k H; [auto|].
  apply (IH (if existsb (keq k0) seen then seen else seen ++ [k0])) in H as [H|H]; [|auto].
  destruct (existsb _ _); [auto|]. apply in_app_iff in H as [H|[<-|[]]]; auto.
Qed.
Lemma distinct_snoc : forall l k, distinct keq l -> (forall k', In k' l -> keq k k' = false) -> distinct keq (l ++ [k]).
Proof.
  intros l k HD. induction HD as [|a l HA HD IH]; simpl; intros H; [constructor; [intros ? []|constructor]|].
  constructor; [|apply IH; intros; apply H; auto]. intros k' HI. apply in_app_iff in HI as [HI|[<-|[]]]; [auto|].
  rewrite (keq_sym keq HE). apply H. auto.
Qed.
Lemma union_distinct : forall (d : list (K * A)) seen, distinct keq seen -> distinct keq (kunion keq seen d).
Proof.
  intros d. induction d as [|[k0 v0] r IH]; simpl; intros seen H; [assumption|].
  apply (IH (if existsb (keq k0) seen then seen else seen ++ [k0])). destruct (existsb (keq k0) seen) eqn:E; [assumption|].
  apply distinct_snoc; [assumption|]. intros k' HI. destruct (keq k0 k') eqn:F; [|reflexivity].
  assert (existsb (keq k0) seen = true) by (apply existsb_exists; eauto). congruence.
Qed.
Lemma unions_in : forall (ds : list (list (K * A))) seen k, In k seen -> In k (fold_left (kunion keq) ds seen).
Proof. induction ds as [|d r IH]; simpl; intros; [assumption|]. apply IH, union_in. assumption. Qed.
Lemma unions_has : forall (ds : list (list (K * A))) seen d k, In d ds -> In k (map fst d) ->
  exists k', In k' (fold_left (kunion keq) ds seen) /\ keq k k' = true.
Proof.
  induction ds as [|d0 r IH]; simpl; intros seen d k H HK; [contradiction|]. destruct H as [<-|H]; [|eapply IH; eassumption].
  destruct (union_has d0 seen k HK) as (k' & HI & HQ). exists k'. split; [apply unions_in; assumption|assumption].
Qed.
Lemma unions_distinct : forall (ds : list (list (K * A))) seen, distinct keq seen -> distinct keq (fold_left (kunion keq) ds seen).
Proof. induction ds as [|d r IH]; simpl; intros; [assumption|]. apply IH, union_distinct. assumption. Qed.
Lemma kfirst_value : forall (ds : list (list (K * A))) k, kfirst keq ds k = first_value keq ds k.
Proof. induction ds as [|d r IH]; simpl; intros; [reflexivity|]. rewrite kget_value, IH. reflexivity. Qed.
Lemma kfirst_same : forall (ds : list (list (K * A))) a b, keq a b = true -> kfirst keq ds a = kfirst keq ds b.
Proof. induction ds as [|d r IH]; simpl; intros a b H; [reflexivity|]. rewrite (kget_same keq HE a b d H), (IH a b H). reflexivity. Qed.
Lemma kfirst_some : forall (ds : list (list (K * A))) k v, kfirst keq ds k = Some v -> exists d k', In d ds /\ In k' (map fst d) /\ keq k k' = true.
Proof.
  induction ds as [|d r IH]; simpl; intros k v H; [discriminate|]. destruct (kget keq k d) eqn:E.
  - assert (HN : kget keq k d <> None) by congruence.
    assert (HX : ~ forall k', In k' (map fst d) -> keq k k' = false) by (intro X; apply HN; apply kget_none; assumption).
    clear - HX. exists d. induction (map fst d) as [|a l IH]; [exfalso; apply HX; intros ? []|].
    destruct (keq k a) eqn:E; [exists a; simpl; auto|]. destruct IH as (k' & _ & HI & HQ).
    + intro X. apply HX. intros k' [<-|HI]; auto.
    + exists k'. simpl in *. tauto.
  - destruct (IH k v H) as (d' & k' & HI & HK & HQ). exists d', k'. auto.
Qed.
Lemma flat_keys : forall (f : K -> option A) l k, In k (map fst (flat_map (fun k => match f k with Some v => [(k, v)] | None => [] end) l)) -> In k l.
Proof.
  intros f l k. induction l as [|a r IH]; simpl; [tauto|]. rewrite map_app, in_app_iff. intros [H|H]; [|auto].
  destruct (f a); simpl in H; [destruct H as [<-|[]]; auto|contradiction].
Qed.
Lemma flat_distinct : forall (f : K -> option A) l, distinct keq l -> distinct keq (map fst (flat_map (fun k => match f k with Some v => [(k, v)] | None => [] end) l)).
Proof.
  intros f l H. induction H as [|a l HA HD IH]; simpl; [constructor|]. destruct (f a); simpl; [|assumption].
  constructor; [|assumption]. intros k' HI. apply HA. eapply flat_keys. eassumption.
Qed.
Lemma flat_get : forall (f : K -> option A), (forall a b, keq a b = true -> f a = f b) -> forall l k,
  (exists k', In k' l /\ keq k k' = true) \/ f k = None ->
  kget keq k (flat_map (fun k => match f k with Some v => [(k, v)] | None => [] end) l) = f k.
Proof.
  intros f HF l k. induction l as [|a r IH]; simpl; intros H.
  - destruct H as [(k' & [] & _)|H]. congruence.
  - destruct (keq k a) eqn:E.
    + rewrite (HF k a E). destruct (f a) eqn:F; simpl; [rewrite E; reflexivity|].
      rewrite IH; [rewrite (HF k a E); assumption|]. right. rewrite (HF k a E). assumption.
    + destruct (f a); simpl; [rewrite E|]; apply IH; (destruct H as [(k' & [<-|HI] & HQ)|H]; [congruence|left; eauto|auto]).
Qed.
Lemma chain_spec : forall (maps : list (list (K * A))) kw,
  distinct keq (map fst (kchain keq maps kw)) /\ forall k, kget keq k (kchain keq maps kw) = first_value keq (maps ++ [kw]) k.
Proof.
  intros maps kw. unfold kchain. split.
  - apply flat_distinct. apply unions_distinct. constructor.
  - intro k. rewrite <- kfirst_value. apply flat_get; [intros; apply kfirst_same; assumption|].
    destruct (kfirst keq (maps ++ [kw]) k) eqn:E; [|auto]. left.
    destruct (kfirst_some _ _ _ E) as (d & k1 & HI & HK & HQ).
    destruct (unions_has (rev (maps ++ [kw])) [] d k1) as (k2 & HI2 & HQ2); [apply -> in_rev; assumption|assumption|].
    exists k2. split; [assumption|]. rewrite (keq_same keq HE k k1 k2 HQ). assumption.
Qed.
Lemma call_distinct : forall is_none show (s : ksel K A) d d', distinct keq (map fst d) -> kcall keq is_none show s d = Ok d' -> distinct keq (map fst d').
Proof.
  intros is_none show s d d' HD H. destruct (ktruth is_none s) eqn:ET; [|unfold kcall in H; rewrite ET in H; simpl in H; injection H as <-; assumption].
  assert (HN : ~ begins_with_none is_none s) by (intro X; assert (ktruth is_none s = false) by (apply truth_spec; auto); congruence).
  assert (HR : Rel keq d (fun k => kget keq k d)) by (split; [assumption|reflexivity]).
  pose proof (call_sim keq HE is_none show s _ _ HN HR) as HS. rewrite H in HS. destruct HS as (_ & _ & HD' & _). assumption.
Qed.
Context (text : K -> option string).
Lemma keywords_ok : forall (d : list (K * A)) kw, keywords text d = Ok kw ->
  Forall2 (fun kv sv => text (fst kv) = Some (fst sv) /\ snd kv = snd sv) d kw.
Proof.
  unfold keywords. induction d as [|[k v] r IH]; simpl; intros kw H; [injection H as <-; constructor|].
  destruct (text k) eqn:E; simpl in H; [|discriminate].
  destruct (mapO _ r) as [ys|] eqn:F; simpl in H; [|discriminate]. injection H as <-. constructor; [auto|]. apply IH. reflexivity.
Qed.
Lemma keywords_all : forall (d : list (K * A)), (forall k, In k (map fst d) -> text k <> None) -> exists kw, keywords text d = Ok kw.
Proof.
  unfold keywords. induction d as [|[k v] r IH]; simpl; intros H; [eauto|].
  destruct (text k) eqn:E; [|destruct (H k (or_introl eq_refl) E)]. simpl.
  destruct IH as (kw & ->); [intros; apply H; auto|]. simpl. eauto.
Qed.
Lemma keywords_raise : forall (d : list (K * A)) k, In k (map fst d) -> text k = None -> keywords text d = Raise (mkexc TypeError "keywords must be strings").
Proof.
  unfold keywords. induction d as [|[k0 v] r IH]; simpl; intros k H HT; [contradiction|].
  destruct H as [-> |H]; [rewrite HT; reflexivity|]. destruct (text k0); simpl; [|reflexivity]. rewrite (IH k H HT). reflexivity.
Qed.
Lemma keywords_dict : texts_agree keq text -> forall (d : list (K * A)) kw, distinct keq (map fst d) -> keywords text d = Ok kw -> dict_ok kw.
Proof.
  intros [_ HT] d kw HD H. apply keywords_ok in H. unfold dict_ok, keys. induction H as [|[k v] [t u] d kw [E1 E2] H IH]; simpl in *; [constructor|].
  inversion HD as [|? ? HN HR]; subst. constructor; [|auto]. intro HI. apply in_map_iff in HI as ([t' u'] & E & HI). simpl in E. subst t'.
  assert (HX : exists k', In k' (map fst d) /\ text k' = Some t).
  { clear - H HI. induction H as [|[k v] [t1 u1] d kw [E1 E2] H IH]; [contradiction|]. destruct HI as [HI|HI].
    - injection HI as -> ->. exists k. simpl in *. auto.
    - destruct (IH HI) as (k' & A1 & A2). exists k'. simpl. auto. }
  destruct HX as (k' & HI' & HT'). specialize (HN k' HI'). rewrite (HT k k' t E1 HT') in HN. discriminate.
Qed.
End Frame.

Lemma c151_from_mapping_proof : forall {obj ty W} (R : Rt obj ty W) {K} (keq : K -> K -> bool) is_none text show n c s maps kw,
  key_equality keq -> texts_agree keq text ->
  exists d, distinct keq (map fst d) /\ (forall k, value_of keq d k = first_value keq (maps ++ [kw]) k) /\
  forall w,
  match kcall keq is_none show s d with
  | Raise e => kfrom_mapping R keq is_none text show n c s maps kw w = (Raise e, w)
  | Ok d' =>
      (exists k, In k (map fst d') /\ text k = None) /\
        (exists e, kfrom_mapping R keq is_none text show n c s maps kw w = (Raise e, w) /\ exc_cls e = TypeError) \/
      exists d'', Forall2 (fun kv sv => text (fst kv) = Some (fst sv) /\ snd kv = snd sv) d' d'' /\ dict_ok d'' /\
        kfrom_mapping R keq is_none text show n c s maps kw w = construct R n c None d'' w
  end.
Proof.
  intros obj ty W R K keq is_none text show n c s maps kw HE HT. exists (kchain keq maps kw).
  destruct (chain_spec keq HE maps kw) as [HD HC]. split; [assumption|]. split; [intro; rewrite <- kget_value; apply HC|].
  intros w. unfold kfrom_mapping. destruct (kcall keq is_none show s (kchain keq maps kw)) as [d'|e] eqn:E; unfold bind, lift; [|reflexivity].
  destruct (keywords text d') as [d''|e] eqn:F.
  - right. exists d''. split; [apply keywords_ok; assumption|]. split; [|reflexivity].
    eapply keywords_dict; [exact HT|eapply call_distinct; eassumption|eassumption].
  - left. split; [|].
    + destruct (existsb (fun k => match text k with None => true | _ => false end) (map fst d')) eqn:G.
      * apply existsb_exists in G as (k & HI & HK). exists k. split; [assumption|]. destruct (text k); [discriminate|reflexivity].
      * destruct (keywords_all text d') as (kw' & E'); [|congruence]. intros k HI HX.
        assert (existsb (fun k => match text k with None => true | _ => false end) (map fst d') = true); [|congruence].
        apply existsb_exists. exists k. rewrite HX. auto.
    + exists e. split; [reflexivity|]. clear - F. revert e F. unfold keywords. induction d' as [|[k v] r IH]; simpl; intros e F; [discriminate|].
      destruct (text k); simpl in F; [|injection F as <-; reflexivity]. destruct (mapO _ r); simpl in F; [discriminate|]. injection F as <-. apply (IH _ eq_refl).
Qed.

Lemma c151_accounted_proof : forall {obj ty W} (R : Rt obj ty W) {K} (keq : K -> K -> bool) is_none text show n c s maps kw w r w' m k,
  key_equality keq -> texts_agree keq text ->
  kfrom_mapping R keq is_none text show n c s maps kw w = (Ok r, w') ->
  In m maps -> In k (map fst m) -> text k = None ->
  exists k', In k' (taken s) /\ keq k k' = true.
Proof.
  intros obj ty W R K keq is_none text show n c s maps kw w r w' m k HE HT H HM HK HX.
  destruct (existsb (keq k) (taken s)) eqn:EX; [apply existsb_exists in EX as (k' & A & B); eauto|].
  exfalso. destruct (chain_spec keq HE maps kw) as [HD HC].
  assert (HS : kget keq k (kchain keq maps kw) <> None).
  { rewrite HC. clear - HE HM HK. induction maps as [|d r IH]; [contradiction|]. simpl. destruct HM as [-> |HM].
    - destruct (value_of keq m k) eqn:E; [discriminate|]. rewrite <- kget_value in E. apply kget_none with (k' := k) in E; [|assumption].
      rewrite (keq_refl keq HE) in E. discriminate.
    - destruct (value_of keq d k); [discriminate|]. apply IH. assumption. }
  unfold kfrom_mapping, bind, lift in H. destruct (kcall keq is_none show s (kchain keq maps kw)) as [d'|e] eqn:E; [|discriminate].
  assert (HG : kget keq k d' <> None).
  { destruct (ktruth is_none s) eqn:ET; [|unfold kcall in E; rewrite ET in E; simpl in E; injection E as <-; assumption].
    assert (HN : ~ begins_with_none is_none s) by (intro X; assert (ktruth is_none s = false) by (apply truth_spec; auto); congruence).
    assert (HR : Rel keq (kchain keq maps kw) (fun k => kget keq k (kchain keq maps kw))) by (split; [assumption|reflexivity]).
    pose proof (call_sim keq HE is_none show s _ _ HN HR) as HS'. rewrite E in HS'. destruct HS' as (m' & E' & _ & HM'). rewrite HM'.
    eapply edits_keep; [exact E'| |exact HS]. intros e o HIe HIo. destruct (keq k o) eqn:Q; [|reflexivity].
    assert (existsb (keq k) (taken s) = true); [|congruence]. apply existsb_exists. exists o. split; [|assumption].
    eapply takes_taken; eassumption. }
  assert (HI : exists k', In k' (map fst d') /\ text k' = None).
  { destruct (kget keq k d') eqn:G; [|congruence]. destruct (kfirst_some keq [d'] k o) as (d0 & k' & [<-|[]] & A & B); [simpl; rewrite G; reflexivity|].
    exists k'. split; [assumption|]. rewrite <- (proj1 HT k k' B). assumption. }
  destruct HI as (k' & HI & HX'). rewrite (keywords_raise text d' k' HI HX') in H. discriminate.
Qed.

Lemma c151_none_refuted_proof : forall {obj ty W} (R : Rt obj ty W) {K} (keq : K -> K -> bool) is_none text show n c (s t : ksel K obj) maps kw w m k,
  key_equality keq -> texts_agree keq text -> begins_with_none is_none s ->
  (forall d, kcall keq is_none show s d = Ok d) /\
  kmerge is_none s t = t /\ (forall d, kcall keq is_none show (kmerge is_none t s) d = kcall keq is_none show t d) /\
  (In m maps -> In k (map fst m) -> text k = None ->
   exists e, kfrom_mapping R keq is_none text show n c s maps kw w = (Raise e, w) /\ exc_cls e = TypeError).
Proof.
  intros obj ty W R K keq is_none text show n c s t maps kw w m k HE HT HB.
  assert (ET : ktruth is_none s = false) by (apply truth_spec; auto).
  assert (HC : forall d : list (K * obj), kcall keq is_none show s d = Ok d) by (intro d; unfold kcall; rewrite ET; reflexivity).
  split; [assumption|]. split; [unfold kmerge; rewrite ET; reflexivity|]. split.
  - intro d. unfold kmerge. rewrite ET. simpl. destruct (ktruth is_none t) eqn:E; simpl; [reflexivity|]. rewrite HC. unfold kcall. rewrite E. reflexivity.
  - intros HM HK HX. destruct (c151_from_mapping_proof R keq is_none text show n c s maps kw HE HT) as (d & HD & HV & H). specialize (H w).
    rewrite HC in H. destruct H as [[_ H]|(d'' & HF & _ & _)]; [exact H|]. exfalso.
    assert (HG : kget keq k d <> None).
    { rewrite kget_value, HV. clear - HE HM HK. induction maps as [|d r IH]; [contradiction|]. simpl. destruct HM as [-> |HM].
      - destruct (value_of keq m k) eqn:E; [discriminate|]. rewrite <- kget_value in E. apply kget_none with (k' := k) in E; [|assumption].
        rewrite (keq_refl keq HE) in E. discriminate.
      - destruct (value_of keq d k); [discriminate|]. apply IH. assumption. }
    destruct (kget keq k d) eqn:G; [|congruence]. destruct (kfirst_some keq [d] k o) as (d0 & k' & [<-|[]] & A & B); [simpl; rewrite G; reflexivity|].
    assert (HX' : text k' = None) by (rewrite <- (proj1 HT k k' B); assumption).
    clear - HF A HX'. induction HF as [|[a b] [t u] l l' [E1 E2] HF IH]; simpl in *; [contradiction|]. destruct A as [-> |A]; [congruence|auto].
Qed.

Section Transfer.
Context {K A : Type} (keq : K -> K -> bool) (is_none : K -> bool) (show : K -> string).
Context (U : K -> Prop) (name : K -> string) (HU : forall a b, U a -> U b -> String.eqb (name a) (name b) = keq a b).
Notation rel := (@relabel K A name).
Definition inU (d : list (K * A)) : Prop := forall k, In k (map fst d) -> U k.
Lemma inU_tail : forall p d, inU (p :: d) -> U (fst p) /\ inU d.
Proof. intros p d H. split; [apply H; left; reflexivity|intros k HI; apply H; right; assumption]. Qed.
Lemma rel_get : forall k d, U k -> inU d -> dget (name k) (rel d) = kget keq k d.
Proof.
  intros k d HK HD. induction d as [|[k' v] r IH]; simpl; [reflexivity|]. apply inU_tail in HD as [H1 H2]. simpl in H1.
  rewrite HU by assumption. destruct (keq k k'); [reflexivity|auto].
Qed.
Lemma rel_mem : forall k d, U k -> inU d -> dmem (name k) (rel d) = kmem keq k d.
Proof. intros. unfold dmem, kmem. rewrite rel_get by assumption. reflexivity. Qed.
Lemma rel_kset : forall k v d, U k -> inU d -> dset (name k) v (rel d) = rel (kset keq k v d) /\ inU (kset keq k v d).
Proof.
  intros k v d HK HD. split.
  - induction d as [|[k' v'] r IH]; simpl; [reflexivity|]. apply inU_tail in HD as [H1 H2]. simpl in H1.
    rewrite HU by assumption. destruct (keq k k'); simpl; [reflexivity|]. rewrite IH by assumption. reflexivity.
  - intros k' HI. apply keys_set in HI as [-> |HI]; auto.
Qed.
Lemma rel_kdel : forall k d, U k -> inU d -> ddel (name k) (rel d) = rel (kdel keq k d) /\ inU (kdel keq k d).
Proof.
  intros k d HK HD. split.
  - induction d as [|[k' v'] r IH]; simpl; [reflexivity|]. apply inU_tail in HD as [H1 H2]. simpl in H1.
    rewrite HU by assumption. destruct (keq k k'); simpl; [reflexivity|]. rewrite IH by assumption. reflexivity.
  - intros k' HI. apply keys_del in HI. auto.
Qed.
Definition same1 (o : outcome (list (K * A))) (o' : outcome unit * dict A) : Prop :=
  match o, o' with
  | Ok d1, (Ok _, d2) => d2 = rel d1 /\ inU d1
  | Raise e, (Raise e', _) => exc_cls e = exc_cls e'
  | _, _ => False
  end.
Lemma loop : forall {X Y} (kbody : X -> list (K * A) -> outcome (list (K * A))) (body : Y -> dict A -> outcome unit * dict A) (nm : X -> Y) (ok : X -> Prop),
  (forall x d, ok x -> inU d -> same1 (kbody x d) (body (nm x) (rel d))) ->
  forall l d, (forall x, In x l -> ok x) -> inU d ->
  same1 (steps kbody l d) (fst (for_each body (map nm l) (rel d))).
Proof.
  intros X Y kbody body nm ok HB l. induction l as [|x r IH]; simpl; intros d HL HD; [auto|].
  pose proof (HB x d (HL x (or_introl eq_refl)) HD) as H. destruct (kbody x d) as [d1|e], (body (nm x) (rel d)) as [[[]|e'] d2]; simpl in *; try contradiction.
  - destruct H as [-> H]. apply IH; auto.
  - assumption.
Qed.
Lemma step_rename : forall p d, U (fst p) /\ U (snd p) -> inU d -> same1 (krename keq show p d) (do_rename (name (fst p), name (snd p)) (rel d)).
Proof.
  intros [o n] d [H1 H2] HD. cbn [fst snd] in *. unfold krename, do_rename. cbn [fst snd]. rewrite rel_mem by assumption. destruct (kmem keq n d); [reflexivity|].
  rewrite rel_get by assumption. destruct (kget keq o d); [|reflexivity]. simpl.
  destruct (rel_kdel o d H1 HD) as [-> HD1]. destruct (rel_kset n a _ H2 HD1) as [-> HD2]. auto.
Qed.
Lemma transfer : forall (s : ksel K A) d,
  (forall k, In k (all_keys s d) -> U k) -> ~ begins_with_none is_none s ->
  match kcall keq is_none show s d, sel_apply (relabel_select name s) (rel d) with
  | Ok d1, Ok d2 => d2 = rel d1
  | Raise e, Raise e' => exc_cls e = exc_cls e'
  | _, _ => False
  end.
Proof.
  intros s d HK HN. unfold all_keys, taken in HK.
  assert (HD : inU d) by (intros k HI; apply HK; apply in_or_app; auto).
  assert (H1 : forall k, In k (ks_rem s) -> U k) by (intros k HI; apply HK; rewrite !in_app_iff; tauto).
  assert (H2 : forall k, In k (ks_mrem s) -> U k) by (intros k HI; apply HK; rewrite !in_app_iff; tauto).
  assert (H3 : forall p, In p (ks_ren s) -> U (fst p) /\ U (snd p)).
  { intros p HI. split; apply HK; rewrite !in_app_iff; [apply (in_map fst) in HI|apply (in_map snd) in HI]; tauto. }
  assert (H4 : forall p, In p (ks_mren s) -> U (fst p) /\ U (snd p)).
  { intros p HI. split; apply HK; rewrite !in_app_iff; [apply (in_map fst) in HI|apply (in_map snd) in HI]; tauto. }
  assert (H5 : forall p, In p (ks_add s) -> U (fst p)) by (intros p HI; apply HK; rewrite !in_app_iff; apply (in_map fst) in HI; tauto).
  assert (H6 : forall p, In p (ks_madd s) -> U (fst p)) by (intros p HI; apply HK; rewrite !in_app_iff; apply (in_map fst) in HI; tauto).
  clear HK. unfold sel_apply, sel_call_mapping. cbn [fst].
  assert (HT : exists b, sel_truth (relabel_select name s) = (ktruth is_none s, Sel (Reiter (rel (ks_add s))) (Reiter (rel (ks_madd s))) (Reiter (map name (ks_rem s))) (Reiter (map name (ks_mrem s)))
     (Reiter (map (fun p => (name (fst p), name (snd p))) (ks_ren s))) (Reiter (map (fun p => (name (fst p), name (snd p))) (ks_mren s))) b)).
  { clear - HN. destruct s as [[|? a] [|? ma] [|k r] [|k' mr] [|? n] [|? mn]]; cbn; try (eexists; reflexivity);
      (destruct (is_none k) eqn:E + destruct (is_none k') eqn:E); try (eexists; reflexivity); exfalso; apply HN; (split; [reflexivity|]); (split; [reflexivity|]); cbn; eexists; eexists; (split; [reflexivity|assumption]). }
  destruct HT as (b & HT). unfold sel_call, kcall. rewrite HT. destruct (ktruth is_none s); cbn [negb]; [|reflexivity]. cbn [elements].
  pose proof (loop (kremove keq show) do_remove name U) as L. specialize (L ltac:(
    intros k d0 HUk HD0; unfold kremove, do_remove; rewrite rel_mem by assumption; destruct (kmem keq k d0); [simpl; apply rel_kdel; assumption|reflexivity]) _ d H1 HD).
  destruct (steps (kremove keq show) (ks_rem s) d) as [d1|e], (for_each do_remove (map name (ks_rem s)) (rel d)) as [[[[]|e'] d2] x]; cbn in L; try contradiction; [|cbn; assumption].
  destruct L as [-> HD1]. cbn [obind leave]. clear HD d x.
  pose proof (loop (kmremove keq) do_mremove name U) as L. specialize (L ltac:(
    intros k d0 HUk HD0; unfold kmremove, do_mremove; simpl; apply rel_kdel; assumption) _ d1 H2 HD1).
  destruct (steps (kmremove keq) (ks_mrem s) d1) as [d|e], (for_each do_mremove (map name (ks_mrem s)) (rel d1)) as [[[[]|e'] d2] x]; cbn in L; try contradiction; [|cbn; assumption].
  destruct L as [-> HD]. cbn [obind leave]. clear HD1 d1 x.
  pose proof (loop (krename keq show) do_rename (fun p => (name (fst p), name (snd p))) _ step_rename _ d H3 HD) as L.
  destruct (steps (krename keq show) (ks_ren s) d) as [d1|e], (for_each do_rename (map (fun p => (name (fst p), name (snd p))) (ks_ren s)) (rel d)) as [[[[]|e'] d2] x]; cbn in L; try contradiction; [|cbn; assumption].
  destruct L as [-> HD1]. cbn [obind leave]. clear HD d x.
  pose proof (loop (kmrename keq show) do_mrename (fun p => (name (fst p), name (snd p))) (fun p => U (fst p) /\ U (snd p))) as L. specialize (L ltac:(
    intros [o n] d0 HUk HD0; pose proof (step_rename (o, n) d0 HUk HD0) as Q; unfold kmrename; unfold do_mrename; cbn [fst snd] in *;
    rewrite rel_mem by tauto; destruct (kmem keq o d0); cbn [negb]; [exact Q|split; [reflexivity|assumption]]) _ d1 H4 HD1).
  destruct (steps (kmrename keq show) (ks_mren s) d1) as [d|e], (for_each do_mrename (map (fun p => (name (fst p), name (snd p))) (ks_mren s)) (rel d1)) as [[[[]|e'] d2] x]; cbn in L; try contradiction; [|cbn; assumption].
  destruct L as [-> HD]. cbn [obind leave]. clear HD1 d1 x.
  pose proof (loop (kadd keq show) do_add (fun p => (name (fst p), snd p)) (fun p => U (fst p))) as L. specialize (L ltac:(
    intros [k v] d0 HUk HD0; unfold kadd, do_add; cbn [fst snd] in *; rewrite rel_mem by assumption; destruct (kmem keq k d0); [reflexivity|simpl; apply rel_kset; assumption]) _ d H5 HD).
  change (rel (ks_add s)) with (map (fun p => (name (fst p), snd p)) (ks_add s)).
  destruct (steps (kadd keq show) (ks_add s) d) as [d1|e], (for_each do_add (map (fun p => (name (fst p), snd p)) (ks_add s)) (rel d)) as [[[[]|e'] d2] x]; cbn in L; try contradiction; [|cbn; assumption].
  destruct L as [-> HD1]. cbn [obind leave]. clear HD d x.
  pose proof (loop (kmadd keq) do_madd (fun p => (name (fst p), snd p)) (fun p => U (fst p))) as L. specialize (L ltac:(
    intros [k v] d0 HUk HD0; unfold kmadd, do_madd; cbn [fst snd] in *; rewrite rel_mem by assumption; destruct (kmem keq k d0); [split; [reflexivity|assumption]|simpl; apply rel_kset; assumption]) _ d1 H6 HD1).
  change (rel (ks_madd s)) with (map (fun p => (name (fst p), snd p)) (ks_madd s)).
  destruct (steps (kmadd keq) (ks_madd s) d1) as [d|e], (for_each do_madd (map (fun p => (name (fst p), snd p)) (ks_madd s)) (rel d1)) as [[[[]|e'] d2] x]; cbn in L; try contradiction; [|cbn; assumption].
  destruct L as [-> HD]. reflexivity.
Qed.
End Transfer.

Lemma c151_merge_proof : forall {K A} (is_none : K -> bool) (s t : ksel K A),
  ~ begins_with_none is_none s -> ~ begins_with_none is_none t ->
  let m := kmerge is_none s t in
  ~ begins_with_none is_none m /\
  ks_rem m = ks_rem s ++ ks_rem t /\ ks_mrem m = ks_mrem s ++ ks_mrem t /\ ks_ren m = ks_ren s ++ ks_ren t /\
  ks_mren m = ks_mren s ++ ks_mren t /\ ks_add m = ks_add s ++ ks_add t /\ ks_madd m = ks_madd s ++ ks_madd t.
Proof.
  intros K A is_none s t HS HT. cbv zeta.
  assert (HE : forall u : ksel K A, ~ begins_with_none is_none u -> ktruth is_none u = false -> u = KSel [] [] [] [] [] []).
  { intros [a b r mr e me] HU HF. unfold begins_with_none in HU. cbn in *. unfold ktruth in HF. cbn in HF.
    destruct a; [|discriminate]. destruct b; [|discriminate]. destruct r as [|k r].
    - destruct mr as [|k mr].
      + destruct e; [|discriminate]. destruct me; [reflexivity|discriminate].
      + exfalso. apply HU. apply negb_false_iff in HF. split; [reflexivity|]. split; [reflexivity|]. exists k. eexists. split; [reflexivity|assumption].
    - exfalso. apply HU. apply negb_false_iff in HF. split; [reflexivity|]. split; [reflexivity|]. exists k. eexists. split; [reflexivity|assumption]. }
  unfold kmerge. destruct (ktruth is_none s) eqn:ES; cbn [negb].
  - destruct (ktruth is_none t) eqn:ET; cbn [negb].
    + split; [|repeat split]. intro HB.
      unfold begins_with_none in *. cbn in HB. destruct HB as (HA & HM & k & r & HR & HK).
      apply app_eq_nil in HA as [A1 A2]. apply app_eq_nil in HM as [M1 M2].
      destruct (ks_rem s) as [|k1 r1] eqn:R1; cbn in HR.
      * destruct (ks_rem t) as [|k2 r2] eqn:R2; cbn in HR.
        -- destruct (ks_mrem s) as [|k3 r3] eqn:R3; cbn in HR.
           ++ apply HT. cbn. split; [assumption|]. split; [assumption|]. exists k, r. split; assumption.
           ++ injection HR as -> _. apply HS. cbn. split; [assumption|]. split; [assumption|]. exists k, r3. split; [reflexivity|assumption].
        -- injection HR as -> _. apply HT. split; [assumption|]. split; [assumption|]. exists k, (r2 ++ ks_mrem t). split; [reflexivity|assumption].
      * injection HR as -> _. apply HS. split; [assumption|]. split; [assumption|]. exists k, (r1 ++ ks_mrem s). split; [reflexivity|assumption].
    + rewrite (HE t HT ET). cbn. rewrite !app_nil_r. split; [assumption|repeat split].
  - rewrite (HE s HS ES). cbn. split; [assumption|repeat split].
Qed.

Lemma c151_transfer_proof : forall {K A} (keq : K -> K -> bool) is_none show (s : ksel K A) d,
  key_equality keq -> ~ begins_with_none is_none s ->
  exists name : K -> string,
    (forall a b, In a (all_keys s d) -> In b (all_keys s d) -> (name a = name b <-> keq a b = true)) /\
    match kcall keq is_none show s d, sel_apply (relabel_select name s) (relabel name d) with
    | Ok d', Ok r => r = relabel name d'
    | Raise e, Raise e' => exc_cls e = exc_cls e'
    | _, _ => False
    end.
Proof.
  intros K A keq is_none show s d HE HN.
  set (L := all_keys s d).
  set (rep := fix rep (n : nat) : string := match n with 0 => "" | S n => (append "a" (rep n)) end).
  set (pos := fix pos (l : list K) (k : K) : nat := match l with [] => 0 | a :: r => if keq k a then 0 else S (pos r k) end).
  assert (RI : forall m n, rep m = rep n -> m = n).
  { induction m as [|m IH]; intros [|n] H; simpl in H; try discriminate; [reflexivity|]. injection H as H. f_equal. apply IH. assumption. }
  assert (PS : forall l a b, keq a b = true -> pos l a = pos l b).
  { intros l a b H. induction l as [|x r IH]; simpl; [reflexivity|]. rewrite (keq_same keq HE a b x H), IH. reflexivity. }
  assert (PI : forall l a b, In a l -> In b l -> pos l a = pos l b -> keq a b = true).
  { intros l a b. induction l as [|x r IH]; simpl; intros HA HB H; [contradiction|].
    destruct (keq a x) eqn:EA, (keq b x) eqn:EB; try discriminate.
    - rewrite (keq_same keq HE a x b EA), (keq_sym keq HE x b). assumption.
    - injection H as H. destruct HA as [-> |HA]; [rewrite (keq_refl keq HE) in EA; discriminate|].
      destruct HB as [-> |HB]; [rewrite (keq_refl keq HE) in EB; discriminate|]. auto. }
  exists (fun k => rep (pos L k)).
  assert (HF : forall a b, In a L -> In b L -> (rep (pos L a) = rep (pos L b) <-> keq a b = true)).
  { intros a b HA HB. split; [intro H; apply (PI L); auto|intro H; rewrite (PS L a b H); reflexivity]. }
  split; [exact HF|].
  apply (transfer keq is_none show (fun k => In k L) (fun k => rep (pos L k))); [|intros k HI; exact HI|assumption].
  intros a b HA HB. destruct (String.eqb_spec (rep (pos L a)) (rep (pos L b))) as [H|H].
  - symmetry. apply HF; assumption.
  - destruct (keq a b) eqn:E; [|reflexivity]. destruct H. apply HF; assumption.
Qed.

Section Strings.
Context {obj ty W : Type} (R : Rt obj ty W).
Lemma union_keys : forall (d : dict obj) seen,
  kunion String.eqb seen d = fold_left (fun acc k => if smem k acc then acc else acc ++ [k]) (keys d) seen.
Proof. unfold kunion, keys. induction d as [|[k v] r IH]; simpl; intros seen; [reflexivity|]. apply IH. Qed.
Lemma chain_keys_pure : forall maps (ds : list (dict obj)), Forall2 (is_mapping R) maps ds ->
  forall seen w, chain_keys R maps seen w = (Ok (fold_left (kunion String.eqb) ds seen), w).
Proof.
  intros maps ds H. induction H as [|m d maps ds (HD & HI & HG) H IH]; simpl; intros seen w; [reflexivity|].
  unfold bind. rewrite HI, <- union_keys. apply IH.
Qed.
Lemma kget_dget : forall k (d : dict obj), kget String.eqb k d = dget k d.
Proof. intros k d. induction d as [|[k' v] r IH]; simpl; [reflexivity|]. destruct (String.eqb k k'); auto. Qed.
Lemma chain_item_pure : forall maps (ds : list (dict obj)), Forall2 (is_mapping R) maps ds ->
  forall kw k v w, kfirst String.eqb (ds ++ [kw]) k = Some v -> chain_item R maps kw k w = (Ok v, w).
Proof.
  intros maps ds H. induction H as [|m d maps ds (HD & HI & HG) H IH]; simpl; intros kw k v w HF.
  - rewrite kget_dget in HF. destruct (dget k kw); [injection HF as ->; reflexivity|discriminate].
  - rewrite kget_dget in HF. rewrite HG. destruct (dget k d); [injection HF as ->; reflexivity|]. cbn. apply IH. assumption.
Qed.
Lemma string_equality : key_equality String.eqb.
Proof.
  split; [apply String.eqb_refl|]. split; [intros a b H; rewrite String.eqb_sym; assumption|].
  intros a b c H1 H2. apply String.eqb_eq in H1, H2. subst. apply String.eqb_refl.
Qed.
Lemma fold_rev_snoc : forall (ds : list (dict obj)) kw, NoDup (keys kw) ->
  fold_left (kunion String.eqb) (rev (ds ++ [kw])) [] = fold_left (kunion String.eqb) (rev ds) (keys kw).
Proof.
  intros ds kw HD. rewrite rev_app_distr. simpl. f_equal. rewrite union_keys.
  assert (G : forall l seen, NoDup (seen ++ l) -> fold_left (fun acc k => if smem k acc then acc else acc ++ [k]) l seen = seen ++ l).
  { induction l as [|k r IH]; simpl; intros seen HN; [rewrite app_nil_r; reflexivity|].
    destruct (smem k seen) eqn:E.
    - exfalso. unfold smem in E. apply existsb_exists in E as (k' & HI & HK). apply String.eqb_eq in HK. subst k'.
      apply NoDup_remove_2 in HN. apply HN. apply in_or_app. auto.
    - rewrite IH; rewrite <- app_assoc; [reflexivity|exact HN]. }
  apply (G (keys kw) []). assumption.
Qed.
End Strings.

Lemma c151_strings_proof : forall {obj ty W} (R : Rt obj ty W) n c (s : ksel string obj) maps ds kw w,
  Forall2 (is_mapping R) maps ds -> dict_ok kw ->
  (kfrom_mapping R String.eqb (fun _ => false) Some (fun k => k) n c s ds kw w =
   from_mapping R n c (relabel_select (fun k => k) s) maps kw w) \/
  exists e e', kfrom_mapping R String.eqb (fun _ => false) Some (fun k => k) n c s ds kw w = (Raise e, w) /\
    from_mapping R n c (relabel_select (fun k => k) s) maps kw w = (Raise e', w) /\ exc_cls e = exc_cls e'.
Proof.
  intros obj ty W R n c s maps ds kw w HM HK. unfold kfrom_mapping, from_mapping, from_mapping_with, chain_map.
  assert (HC : forall w, (let* ks := chain_keys R (rev maps) (keys kw) in mapM (fun k => let* v := chain_item R maps kw k in ret (k, v)) ks) w =
                         (Ok (kchain String.eqb ds kw), w)).
  { intro w0. unfold bind at 1. rewrite (chain_keys_pure R (rev maps) (rev ds)) by (clear - HM; induction HM; simpl; [constructor|apply Forall2_app; auto]).
    unfold kchain. cbv zeta. pose proof (fold_rev_snoc ds kw HK) as FS. unfold dict, kdict in *. rewrite FS. clear FS.
    assert (HF : forall k, In k (fold_left (kunion String.eqb) (rev ds) (keys kw)) -> exists v, kfirst String.eqb (ds ++ [kw]) k = Some v).
    { intros k HI. destruct (kfirst String.eqb (ds ++ [kw]) k) eqn:E; [eauto|]. exfalso.
      assert (G : forall (l : list (list (string * obj))) seen, In k (fold_left (kunion String.eqb) l seen) -> In k seen \/ exists d, In d l /\ In k (map fst d)).
      { clear. induction l as [|d r IH]; simpl; intros seen H; [auto|]. apply IH in H as [H|(d' & A & B)]; [|eauto].
        apply union_only in H as [H|H]; [auto|]. right. exists d. auto. }
      assert (X : exists d, In d (ds ++ [kw]) /\ In k (map fst d)).
      { apply G in HI as [HI|(d & A & B)]; [exists kw; split; [apply in_or_app; right; left; reflexivity|exact HI]|].
        exists d. split; [apply in_or_app; left; apply in_rev; assumption|assumption]. }
      destruct X as (d & A & B). clear - E A B. induction (ds ++ [kw]) as [|d0 l IH]; [contradiction|]. simpl in E.
      destruct (kget String.eqb k d0) eqn:F; [discriminate|]. destruct A as [-> |A]; [|auto].
      apply (proj2 (kget_none String.eqb k d)) with (k' := k) in F; [|assumption]. rewrite String.eqb_refl in F. discriminate. }
    refine ((fun H : forall l w0, (forall k, In k l -> exists v, kfirst String.eqb (ds ++ [kw]) k = Some v) ->
      mapM (fun k : string => let* v := chain_item R maps kw k in ret (k, v)) l w0 =
      (Ok (flat_map (fun k => match kfirst String.eqb (ds ++ [kw]) k with Some v => [(k, v)] | None => [] end) l), w0) => H _ w0 HF) _).
    clear HF w0. intros l. induction l as [|k r IH]; intros w0 HF; [reflexivity|].
    destruct (HF k (or_introl eq_refl)) as (v & HV). simpl. rewrite HV. unfold bind. rewrite (chain_item_pure R maps ds HM kw k v w0 HV). cbn.
    rewrite IH by (intros; apply HF; right; assumption). reflexivity. }
  match goal with |- _ = ?rhs \/ _ => assert (HB : rhs = (let* d0 := lift (sel_apply (relabel_select (fun k => k) s) (kchain String.eqb ds kw)) in construct R n c None d0) w) end.
  { unfold bind at 1. rewrite HC. reflexivity. }
  rewrite HB. clear HB.
  assert (HT := transfer String.eqb (fun _ => false) (fun k => k) (fun _ => True) (fun k => k) (fun a b _ _ => eq_refl) s (kchain String.eqb ds kw) (fun _ _ => I)
    ltac:(intros (_ & _ & k & r & _ & H); discriminate)).
  assert (HR : forall d : dict obj, relabel (fun k => k) d = d) by (intro d; unfold relabel; induction d as [|[k v] r IH]; simpl; [reflexivity|rewrite IH; reflexivity]).
  rewrite HR in HT.
  assert (HW : forall d : dict obj, keywords Some d = Ok d).
  { intro d. unfold keywords. induction d as [|[k v] r IH]; simpl; [reflexivity|]. rewrite IH. reflexivity. }
  unfold bind, lift. destruct (kcall String.eqb (fun _ => false) (fun k => k) s (kchain String.eqb ds kw)) as [d1|e],
    (sel_apply (relabel_select (fun k => k) s) (kchain String.eqb ds kw)) as [d2|e']; try contradiction.
  - left. subst d2. rewrite HR, HW. reflexivity.
  - right. exists e, e'. auto.
Qed.
