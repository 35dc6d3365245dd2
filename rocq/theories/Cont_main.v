(** Cont_main.v -- proofs of the properties stated in Props_Cont.v: C128: what becomes of a container whose elements are changed by its field *)

From Verif Require Import Base Py Filler Spec_Filler Demo Containers.
Open Scope string_scope.
Open Scope list_scope.

From Verif Require Filler_proofs Filler_eqs Filler_main.
Import Filler_proofs Filler_eqs.

(** [same] is [is] *)
Definition identity {obj} (same : obj -> obj -> bool) : Prop := forall x y, same x y = true <-> x = y.
(** fill all elements, each once and in order; the same container if none changed, else a new one *)
Definition all_filled {obj W} (same : obj -> obj -> bool) (elt : obj -> M W obj) (anew : list obj -> M W obj) (v : obj) (l : list obj) : M W obj :=
  let* l' := mapM elt l in
  if forallb (fun p => same (fst p) (snd p)) (combine l l') then ret v else anew l'.
(** no key equals an earlier one *)
Fixpoint all_different {obj} (eq : obj -> obj -> bool) (l : list obj) : bool :=
  match l with
  | [] => true
  | x :: r => forallb (fun y => negb (eq y x)) r && all_different eq r
  end.
(** [s] are elements of [l], no two of them equal, and every element of [l] equals one of them *)
Definition set_of {obj} (eq : obj -> obj -> bool) (l s : list obj) : Prop :=
  all_different eq s = true /\ (forall x, In x s -> In x l) /\ (forall x, In x l -> In x s \/ exists y, In y s /\ eq x y = true).
Definition equivalence {obj} (eq : obj -> obj -> bool) : Prop :=
  (forall x, eq x x = true) /\ (forall x y, eq x y = true -> eq y x = true) /\ (forall x y z, eq x y = true -> eq y z = true -> eq x z = true).
(** [d] has, of the items [l] with equal keys, the key of the first and the value of the last *)
Definition dict_of {obj} (eq : obj -> obj -> bool) (l d : list (obj * obj)) : Prop :=
  all_different eq (map fst d) = true /\
  forall k x, In (k, x) d <->
    (exists a y b, l = a ++ (k, y) :: b /\ forall p, In p a -> eq (fst p) k = false) /\
    (exists a k' b, l = a ++ (k', x) :: b /\ eq k' k = true /\ forall p, In p b -> eq (fst p) k = false).
(** fill all keys and values; the same mapping if none changed, else a new one *)
Definition all_items_filled {obj W} (same : obj -> obj -> bool) (fk fv : obj -> M W obj) (anew : list (obj * obj) -> M W obj) (v : obj) (l : list (obj * obj)) : M W obj :=
  let* l' := mapM (fun kv : obj * obj => let* k := fk (fst kv) in let* x := fv (snd kv) in ret (k, x)) l in
  if forallb (fun p => same (fst (fst p)) (fst (snd p)) && same (snd (fst p)) (snd (snd p))) (combine l l') then ret v else anew l'.
(** the run time has these containers, with these constructors *)
Definition standard {obj ty W} (P : Py obj ty W) (B : Builtins obj W) : Prop :=
  forall v c, view B v = Some c ->
    elems P v = Some (contents c) /\
    forall rk es w, rebuild P rk v es w = construct_from B rk c (map ret es) w.
(** a container whose constructor runs through its argument *)
Definition runs_through {obj} (c : cont obj) : bool :=
  match c with CList _ | CTuple _ | CDeque _ _ => true | _ => false end.

Section ContProofs.
Context {obj W : Type} (B : Builtins obj W) (same : obj -> obj -> bool) (SPi : identity same).
Implicit Types (elt : obj -> M W obj) (l : list obj).

Lemma SP x y : reflect (x = y) (same x y).
Proof. apply iff_reflect. symmetry. apply SPi. Qed.

Lemma same_refl x : same x x = true.
Proof. destruct (SP x x); congruence. Qed.

Lemma bind_same {A C} (m : M W A) (k k' : A -> M W C) w : (forall a w, k a w = k' a w) -> bind m k w = bind m k' w.
Proof. intros H. unfold bind. destruct (m w) as [[a|e] w1]; auto. Qed.

Lemma take_all_rets l (g : list (M W obj)) w : take_all (map ret l ++ g) w = (let* r := take_all g in ret (l ++ r)) w.
Proof.
  induction l as [|x l IH].
  - cbn [map app]. unfold bind, ret. destruct (take_all g w) as [[r|e] w1]; reflexivity.
  - unfold take_all in *. cbn [map app mapM]. unfold bind, ret in *. cbn in *.
    rewrite IH. destruct (mapM (fun m => m) g w) as [[r|e] w1]; reflexivity.
Qed.

Lemma take_all_map elt l w : take_all (map elt l) w = mapM elt l w.
Proof.
  revert w. induction l as [|x l IH]; intros w; [reflexivity|]. unfold take_all in *. cbn [map mapM].
  apply bind_same. intros y w1. unfold bind. rewrite IH. reflexivity.
Qed.

(** results of element fillers that constructors accept *)
Definition gives (good : obj -> bool) (m : M W obj) : Prop := forall w y w', m w = (Ok y, w') -> good y = true.

Lemma on_demand rk elt v c (anew : list obj -> M W obj) (good : obj -> bool) :
  (forall g w, Forall (gives good) g -> construct_from B rk c g w = (let* l := take_all g in anew l) w) ->
  (forall x, gives good (elt x)) ->
  forall l dn w, Forall (fun x => good x = true) dn -> fill_on_demand B same rk elt v c dn l w =
    (let* l' := mapM elt l in if forallb (fun p => same (fst p) (snd p)) (combine l l') then ret v else anew (dn ++ l')) w.
Proof.
  intros HC HG. induction l as [|e r IH]; intros dn w HD; [reflexivity|].
  cbn [fill_on_demand mapM]. rewrite bind_assoc. apply bind_ext; [reflexivity|]. intros e' w1 Ee.
  rewrite bind_assoc. destruct (SP e' e) as [->|N].
  - rewrite IH by (apply Forall_app; split; [exact HD|]; constructor; [exact (HG _ _ _ _ Ee)|constructor]).
    apply bind_same. intros l' w2. unfold bind, ret. cbn. rewrite same_refl. cbn.
    now rewrite <- app_assoc.
  - rewrite HC.
    + unfold bind at 1. rewrite take_all_rets. unfold bind, ret.
      unfold take_all at 1. cbn [mapM]. unfold bind, ret. change (mapM (fun m : M W obj => m) (map elt r)) with (take_all (map elt r)).
      rewrite take_all_map. destruct (mapM elt r w1) as [[l'|x] w2]; [|reflexivity].
      cbn. destruct (SP e e'); [congruence|]. reflexivity.
    + apply Forall_app. split; [|constructor].
      * clear -HD. induction HD; cbn; constructor; auto. intros w y w' H1. unfold ret in H1. congruence.
      * intros w2 y w' H1. injection H1 as <- <-. exact (HG _ _ _ _ Ee).
      * clear -HG. induction r; cbn; constructor; auto.
Qed.

Lemma any_gives (m : M W obj) : gives (fun _ => true) m.
Proof. intros w y w' _. reflexivity. Qed.
Lemma all_true l : Forall (fun _ : obj => true = true) l.
Proof. induction l; constructor; auto. Qed.
Lemma all_gives (g : list (M W obj)) : Forall (gives (fun _ => true)) g.
Proof. induction g; constructor; auto using any_gives. Qed.

Lemma construct_runs rk c g w : runs_through c = true ->
  construct_from B rk c g w = (let* l := take_all g in construct_from B rk c (map ret l)) w.
Proof.
  intros H. destruct c; try discriminate; cbn [construct_from]; apply bind_same; intros r w1;
  unfold bind; rewrite <- (app_nil_r (map ret r)), take_all_rets; unfold bind, ret, take_all; cbn; now rewrite app_nil_r.
Qed.

Lemma last_n_all n l : match n with Some n => List.length l <= n | None => True end -> last_n n l = l.
Proof. destruct n as [n|]; cbn; auto. intros H. replace (List.length l - n) with 0 by lia. reflexivity. Qed.

Lemma mapM_len {X Y} (f : X -> M W Y) (l : list X) w (l' : list Y) w' : mapM f l w = (Ok l', w') -> List.length l' = List.length l.
Proof.
  revert w l' w'. induction l as [|x l IH]; intros w l' w' H; cbn in H.
  - injection H as <- <-. reflexivity.
  - unfold bind, ret in H. destruct (f x w) as [[y|e] w1]; [|discriminate].
    destruct (mapM f l w1) as [[ys|e] w2] eqn:E; [|discriminate]. injection H as <- <-. cbn. f_equal. eauto.
Qed.

(** ** sets *)
Definition put_all l acc := fold_left (fun a x => set_put B x a) l acc.

Lemma set_from_good (g : list (M W obj)) : forall acc w, Forall (gives (hashable B)) g ->
  set_from B g acc w = (let* l := take_all g in ret (put_all l acc)) w.
Proof.
  induction g as [|m g IH]; intros acc w H; [reflexivity|]. inversion H as [|? ? H1 H2]; subst.
  unfold take_all. cbn [set_from mapM]. rewrite bind_assoc. apply bind_ext; [reflexivity|]. intros x w1 E. rewrite bind_assoc.
  rewrite (H1 _ _ _ E), IH by assumption. unfold bind, ret, take_all.
  destruct (mapM (fun m0 => m0) g w1) as [[l|e] w2]; reflexivity.
Qed.

Lemma put_all_different l : forall acc,
  (forall x y, In x l -> In y acc -> key_eq B x y = false) ->
  all_different (key_eq B) l = true -> put_all l acc = acc ++ l.
Proof.
  unfold put_all. induction l as [|x l IH]; intros acc HA HD; cbn; [now rewrite app_nil_r|].
  cbn in HD. apply andb_prop in HD as [H1 H2]. unfold set_put.
  assert (E : existsb (key_eq B x) acc = false).
  { apply not_true_is_false. intros K. apply existsb_exists in K as (y & Hy & K). rewrite HA in K; auto; [discriminate|now left]. }
  rewrite E, IH; auto.
  - now rewrite <- app_assoc.
  - intros y z Hy Hz. apply in_app_or in Hz as [Hz|[<-|[]]]; [apply HA; auto; now right|].
    rewrite forallb_forall in H1. specialize (H1 _ Hy). now apply negb_true_iff.
Qed.

Lemma put_all_length l : forall acc, List.length (put_all l acc) <= List.length acc + List.length l.
Proof.
  unfold put_all. induction l as [|x l IH]; intros acc; cbn; [lia|].
  eapply Nat.le_trans; [apply IH|]. unfold set_put. destruct (existsb _ _); rewrite ?app_length; cbn; lia.
Qed.

Lemma put_all_kept l : forall acc, exists more, put_all l acc = acc ++ more.
Proof.
  unfold put_all. induction l as [|x l IH]; intros acc; cbn; [exists []; now rewrite app_nil_r|].
  destruct (IH (set_put B x acc)) as [m ->]. unfold set_put. destruct (existsb _ _); [now exists m|].
  exists (x :: m). now rewrite <- app_assoc.
Qed.

Lemma put_all_collides l : forall acc,
  all_different (key_eq B) l = false \/ (exists x y, In x l /\ In y acc /\ key_eq B x y = true) ->
  List.length (put_all l acc) < List.length acc + List.length l.
Proof.
  unfold put_all. induction l as [|x l IH]; intros acc H.
  - destruct H as [H|(x & y & [] & _)]; discriminate.
  - cbn [fold_left List.length]. unfold set_put at 2. destruct (existsb (key_eq B x) acc) eqn:E.
    + pose proof (put_all_length l acc) as L. unfold put_all in L. lia.
    + assert (K : List.length (fold_left (fun a y => set_put B y a) l (acc ++ [x])) < List.length (acc ++ [x]) + List.length l).
      { apply IH. destruct H as [H|(a & b & Ha & Hb & K)].
        - cbn in H. destruct (forallb (fun y => negb (key_eq B y x)) l) eqn:F; [left; exact H|right].
          assert (exists y, In y l /\ key_eq B y x = true) as (y & Hy & Ky).
          { clear -F. induction l as [|z l IHl]; cbn in F; [discriminate|].
            destruct (key_eq B z x) eqn:K; [exists z; split; [now left|exact K]|].
            cbn in F. destruct (IHl F) as (y & Hy & Ky). exists y. split; [now right|exact Ky]. }
          exists y, x. repeat split; auto. apply in_or_app. right. now left.
        - right. destruct Ha as [<-|Ha].
          + exfalso. assert (existsb (key_eq B x) acc = true) by (apply existsb_exists; eauto). congruence.
          + exists a, b. repeat split; auto. apply in_or_app. now left. }
      rewrite app_length in K. cbn in K. lia.
Qed.

(** ** mappings *)
Definition put_items (l acc : list (obj * obj)) := fold_left (fun a kv => put_item B (fst kv) (snd kv) a) l acc.

Lemma dict_from_good (l : list (obj * obj)) : forall acc w, (forall kv, In kv l -> hashable B (fst kv) = true) ->
  dict_from B l acc w = (Ok (put_items l acc), w).
Proof.
  induction l as [|[k v] l IH]; intros acc w H; [reflexivity|]. cbn. pose proof (H _ (or_introl eq_refl)) as Hk. cbn in Hk. rewrite Hk.
  apply IH. intros kv Hkv. apply H. now right.
Qed.

Lemma put_item_new k v acc : (forall k', In k' (map fst acc) -> key_eq B k k' = false) -> put_item B k v acc = acc ++ [(k, v)].
Proof.
  induction acc as [|[k' v'] acc IH]; cbn; intros H; [reflexivity|]. rewrite (H k') by now left. f_equal. apply IH. auto.
Qed.

Lemma put_items_different (l : list (obj * obj)) : forall acc,
  (forall x y, In x (map fst l) -> In y (map fst acc) -> key_eq B x y = false) ->
  all_different (key_eq B) (map fst l) = true -> put_items l acc = acc ++ l.
Proof.
  unfold put_items. induction l as [|[k v] l IH]; intros acc HA HD; cbn; [now rewrite app_nil_r|].
  cbn in HD. apply andb_prop in HD as [H1 H2]. rewrite put_item_new by (intros; apply HA; [now left|assumption]).
  rewrite IH; auto.
  - now rewrite <- app_assoc.
  - intros x y Hx Hy. rewrite map_app in Hy. apply in_app_or in Hy as [Hy|[<-|[]]]; [apply HA; auto; now right|].
    rewrite forallb_forall in H1. specialize (H1 _ Hx). now apply negb_true_iff.
Qed.

Lemma put_item_keys k v acc : map fst (put_item B k v acc) = set_put B k (map fst acc).
Proof.
  unfold set_put. induction acc as [|[k' v'] acc IH]; cbn; [reflexivity|].
  destruct (key_eq B k k') eqn:E; cbn; [reflexivity|]. rewrite IH. now destruct (existsb _ _).
Qed.

Lemma put_items_keys (l : list (obj * obj)) : forall acc, map fst (put_items l acc) = put_all (map fst l) (map fst acc).
Proof.
  unfold put_items, put_all. induction l as [|[k v] l IH]; intros acc; cbn; [reflexivity|].
  rewrite IH, put_item_keys. reflexivity.
Qed.

Lemma count_items_keys (l : list (obj * obj)) : forall acc w (l' : list (obj * nat)) w',
  count_items B l acc w = (Ok l', w') ->
  (forall p n, In (p, n) acc -> 1 <= n) ->
  (forall p n, In (p, n) l' -> 1 <= n /\ (In p (map fst acc) \/ exists k v, In (k, v) l /\ p = pair_obj B k v)).
Proof.
  induction l as [|[k v] l IH]; intros acc w l' w' H HA p n Hp; cbn in H.
  - injection H as <- <-. split; [eapply HA; eassumption|]. left. now apply (in_map fst) in Hp.
  - destruct (hashable B (pair_obj B k v)); [|discriminate].
    match type of H with count_items B l ?a w = _ => set (acc' := a) in H end.
    assert (HB : forall q m, In (q, m) acc' -> 1 <= m /\ (In q (map fst acc) \/ q = pair_obj B k v)).
    { subst acc'. clear -HA. induction acc as [|[q m] acc IHa]; cbn.
      - intros q m [E|[]]. injection E as <- <-. auto.
      - destruct (key_eq B (pair_obj B k v) q) eqn:E.
        + intros q' m' [F|F].
          * injection F as <- <-. split; [lia|]. left. now left.
          * split; [apply (HA q'); now right|]. left. right. now apply (in_map fst) in F.
        + intros q' m' [F|F].
          * injection F as <- <-. split; [apply (HA q); now left|]. left. now left.
          * destruct (IHa (fun p n H => HA p n (or_intror H)) q' m' F) as [G1 [G2|G2]]; split; auto.  }
    destruct (IH acc' w l' w' H (fun q m Hq => proj1 (HB q m Hq)) p n Hp) as [G1 [G2|(k' & v' & G2 & G3)]]; split; auto.
    + apply in_map_iff in G2 as ((q & m) & <- & Hq). destruct (HB q m Hq) as [_ [G|G]]; [now left|]. right. exists k, v. split; [now left|exact G].
    + right. exists k', v'. split; [now right|exact G3].
Qed.

(** ** up to the first changed element *)
Lemma up_to_changed rk elt v c l1 : forall dn w w1 e l2 e' w2,
  mapM elt l1 w = (Ok l1, w1) -> elt e w1 = (Ok e', w2) -> e' <> e ->
  fill_on_demand B same rk elt v c dn (l1 ++ e :: l2) w = construct_from B rk c (map ret (dn ++ l1) ++ ret e' :: map elt l2) w2.
Proof.
  induction l1 as [|x l1 IH]; intros dn w w1 e l2 e' w2 H1 He N.
  - cbn in H1. injection H1 as <-. cbn [app fill_on_demand]. unfold bind. rewrite He.
    destruct (SP e' e) as [->|_]; [congruence|]. now rewrite app_nil_r.
  - cbn in H1. unfold bind, ret in H1. cbn [app fill_on_demand]. unfold bind at 1.
    destruct (elt x w) as [[y|?] w3] eqn:Ex; [|discriminate].
    destruct (mapM elt l1 w3) as [[ys|?] w4] eqn:Em; [|discriminate]. injection H1 as -> -> ->.
    rewrite same_refl. rewrite (IH (dn ++ [x]) w3 w1 e l2 e' w2 Em He N). now rewrite <- app_assoc.
Qed.

Lemma items_changed (l l' : list (obj * obj)) : List.length l' = List.length l -> l' <> l ->
  forallb (fun p : (obj * obj) * (obj * obj) => same (fst (fst p)) (fst (snd p)) && same (snd (fst p)) (snd (snd p))) (combine l l') = false.
Proof.
  intros HL HN. apply not_true_is_false. intros E. apply HN. clear HN. revert l' E HL.
  induction l as [|[k x] l IH]; intros [|[k' x'] l'] E HL; cbn in *; try discriminate; auto.
  apply andb_prop in E as [E1 E2]. apply andb_prop in E1 as [E1 E3]. apply SPi in E1. apply SPi in E3. subst. f_equal. apply IH; auto.
Qed.

Lemma count_items_ok (l : list (obj * obj)) : (forall k x, hashable B (pair_obj B k x) = true) -> forall acc w, exists cs, count_items B l acc w = (Ok cs, w).
Proof.
  intros H. induction l as [|[k x] l IH]; intros acc w; cbn; [eexists; reflexivity|]. rewrite H. apply IH.
Qed.

Lemma all_different_app l x : all_different (key_eq B) (l ++ [x]) = all_different (key_eq B) l && negb (existsb (key_eq B x) l).
Proof.
  induction l as [|y l IH]; cbn; [reflexivity|]. rewrite IH, forallb_app. cbn. rewrite andb_true_r, negb_orb.
  destruct (forallb _ l), (key_eq B x y), (all_different _ l), (existsb _ l); reflexivity.
Qed.
Lemma put_all_set l : set_of (key_eq B) l (put_all l []).
Proof.
  induction l as [|x l IH] using rev_ind; [repeat split; intros x []|].
  assert (ES : put_all (l ++ [x]) [] = set_put B x (put_all l [])) by (unfold put_all; rewrite fold_left_app; reflexivity). rewrite ES.
  destruct IH as (H1 & H2 & H3). unfold set_put. destruct (existsb (key_eq B x) _) eqn:E.
  - split; [exact H1|]. split; [intros y Hy; apply in_or_app; auto|]. intros y Hy. apply in_app_or in Hy as [Hy|[<-|[]]]; [auto|].
    right. apply existsb_exists in E. exact E.
  - split; [rewrite all_different_app, H1, E; reflexivity|]. split.
    + intros y Hy. apply in_or_app. apply in_app_or in Hy as [Hy|Hy]; auto.
    + intros y Hy. apply in_app_or in Hy as [Hy|[<-|[]]]; [|left; apply in_or_app; right; now left].
      destruct (H3 y Hy) as [K|(z & Hz & K)]; [left; apply in_or_app; auto|right; exists z; split; [apply in_or_app; auto|exact K]].
Qed.

Lemma put_item_in k v k' x acc : equivalence (key_eq B) -> all_different (key_eq B) (map fst acc) = true ->
  (In (k', x) (put_item B k v acc) <->
   (key_eq B k k' = true /\ x = v /\ (In k' (map fst acc) \/ k' = k /\ forall k0, In k0 (map fst acc) -> key_eq B k k0 = false)) \/
   (key_eq B k k' = false /\ In (k', x) acc)).
Proof.
  intros (ER & ES & ET). induction acc as [|[a b] acc IH]; intros HD; cbn [put_item map fst In].
  - split.
    + intros [E|[]]. injection E as <- <-. left. split; [apply ER|]. split; [reflexivity|]. right. split; [reflexivity|]. intros k0 [].
    + intros [(E & -> & [[]|[-> _]])|[_ []]]. now left.
  - cbn in HD. apply andb_prop in HD as [H1 H2]. rewrite forallb_forall in H1. specialize (IH H2).
    assert (NA : forall y, In y (map fst acc) -> key_eq B k a = true -> key_eq B k y = false).
    { intros y Hy Ea. destruct (key_eq B k y) eqn:Ey; [|reflexivity]. specialize (H1 y Hy). rewrite (ET y k a) in H1; auto. }
    destruct (key_eq B k a) eqn:Ea; cbn [In].
    + split.
      * intros [E|Hin]; [injection E as <- <-; left; auto|]. right. split; [|auto]. apply (NA k'); [apply (in_map fst) in Hin; exact Hin|reflexivity].
      * intros [(E & -> & [[<-|K]|[-> K]])|(E & [F|K])]; auto.
        -- rewrite (NA k' K eq_refl) in E. discriminate.
        -- rewrite (K a (or_introl eq_refl)) in Ea. discriminate.
        -- injection F as <- <-. congruence.
    + rewrite IH. split.
      * intros [E|[(E & Ex & K)|(E & K)]].
        -- injection E as <- <-. right. auto.
        -- left. split; [exact E|]. split; [exact Ex|]. destruct K as [K|[K1 K2]]; [auto|]. right. split; [exact K1|]. intros k0 [<-|H0]; auto.
        -- right. auto.
      * intros [(E & Ex & [[<-|K]|[K1 K2]])|(E & [F|K])]; try congruence.
        -- right. left. auto.
        -- right. left. split; [exact E|]. split; [exact Ex|]. right. auto.
        -- left. exact F.
        -- right. right. auto.
Qed.
Lemma last_match k (l : list (obj * obj)) : (exists p, In p l /\ key_eq B (fst p) k = true) ->
  exists a p b, l = a ++ p :: b /\ key_eq B (fst p) k = true /\ forall q, In q b -> key_eq B (fst q) k = false.
Proof.
  induction l as [|q l IH] using rev_ind; [intros (p & [] & _)|]. intros (p & Hp & E). destruct (key_eq B (fst q) k) eqn:Eq.
  - exists l, q, []. split; [reflexivity|]. split; [exact Eq|]. intros z [].
  - apply in_app_or in Hp as [Hp|[<-|[]]]; [|congruence]. destruct (IH (ex_intro _ p (conj Hp E))) as (a & p' & b & -> & E' & K).
    exists a, p', (b ++ [q]). rewrite <- app_assoc. split; [reflexivity|]. split; [exact E'|]. intros z Hz. apply in_app_or in Hz as [Hz|[<-|[]]]; auto.
Qed.
Lemma snoc_split {X} (l : list X) q a p b : l ++ [q] = a ++ p :: b -> (b = [] /\ a = l /\ p = q) \/ exists b', b = b' ++ [q] /\ l = a ++ p :: b'.
Proof.
  destruct b as [|z b] using rev_ind; intros E.
  - left. apply app_inj_tail in E as [E1 E2]. auto.
  - right. exists b. rewrite app_comm_cons, app_assoc in E. apply app_inj_tail in E as [E1 E2]. subst. auto.
Qed.
Lemma put_items_dict (l : list (obj * obj)) : equivalence (key_eq B) -> dict_of (key_eq B) l (put_items l []).
Proof.
  intros EQ. pose proof EQ as (ER & ES & ET). induction l as [|[k v] l IH] using rev_ind.
  - split; [reflexivity|]. intros k x. split; [intros []|]. intros [(a & y & b & E & _) _]. destruct a; discriminate.
  - assert (EP : put_items (l ++ [(k, v)]) [] = put_item B k v (put_items l [])) by (unfold put_items; rewrite fold_left_app; reflexivity). rewrite EP.
    destruct IH as [H1 H2]. clear EP. split.
    + rewrite put_item_keys. unfold set_put. destruct (existsb _ _) eqn:E; [exact H1|]. rewrite all_different_app, H1, E. reflexivity.
    + intros k' x. rewrite put_item_in by assumption. set (d := put_items l []) in *.
      assert (HK : In k' (map fst d) <-> exists a y b, l = a ++ (k', y) :: b /\ forall p, In p a -> key_eq B (fst p) k' = false).
      { split.
        - intros H. apply in_map_iff in H as ([k0 y] & <- & H). apply H2 in H. apply H.
        - intros (a & y & b & El & Ha). destruct (last_match k' l) as (a' & [k0 z] & b' & El' & E0 & Hb).
          { exists (k', y). split; [rewrite El; apply in_or_app; right; now left|apply ER]. }
          apply (in_map fst d (k', z)). apply H2. split; [exists a, y, b; auto|exists a', k0, b'; auto]. }
      split.
      * intros [(E & -> & K)|(E & K)].
        -- split; [|exists l, k, []; split; [reflexivity|]; split; [exact E|]; intros p []].
           destruct K as [K|[-> K]].
           ++ apply HK in K as (a & y & b & -> & Ha). exists a, y, (b ++ [(k, v)]). rewrite <- app_assoc. auto.
           ++ exists l, v, []. split; [reflexivity|]. intros [k0 y] Hp. cbn [fst]. destruct (key_eq B k0 k) eqn:E0; [|reflexivity]. exfalso.
              assert (FM : forall m : list (obj * obj), (exists p, In p m /\ key_eq B (fst p) k = true) -> exists a p b, m = a ++ p :: b /\ key_eq B (fst p) k = true /\ forall q, In q a -> key_eq B (fst q) k = false).
              { clear. induction m as [|q m IH]; [intros (p & [] & _)|]. intros (p & Hp & E). destruct (key_eq B (fst q) k) eqn:Eq.
                - exists [], q, m. split; [reflexivity|]. split; [exact Eq|]. intros z [].
                - destruct Hp as [<-|Hp]; [congruence|]. destruct (IH (ex_intro _ p (conj Hp E))) as (a & p' & b & -> & E' & K).
                  exists (q :: a), p', b. split; [reflexivity|]. split; [exact E'|]. intros z [<-|Hz]; auto. }
              destruct (FM l (ex_intro _ (k0, y) (conj Hp E0))) as (a & [k1 z] & b & El & E1 & Ha). cbn [fst] in E1.
              assert (I1 : In k1 (map fst d)).
              { destruct (last_match k1 l) as (a' & [k2 z'] & b' & El' & E2 & Hb). { exists (k1, z). split; [rewrite El; apply in_or_app; right; now left|apply ER]. }
                apply (in_map fst d (k1, z')). apply H2. split; [|exists a', k2, b'; auto].
                exists a, z, b. split; [exact El|]. intros p Hpa. destruct (key_eq B (fst p) k1) eqn:F; [|reflexivity]. specialize (Ha p Hpa). rewrite (ET (fst p) k1 k F E1) in Ha. discriminate. }
              specialize (K k1 I1). rewrite (ES k1 k E1) in K. discriminate.
        -- apply H2 in K as [(a & y & b & -> & Ha) (a' & k2 & b' & El & E2 & Hb)]. split.
           ++ exists a, y, (b ++ [(k, v)]). rewrite <- app_assoc. auto.
           ++ exists a', k2, (b' ++ [(k, v)]). rewrite El, <- app_assoc. split; [reflexivity|]. split; [exact E2|].
              intros p Hp. apply in_app_or in Hp as [Hp|[<-|[]]]; [auto|exact E].
      * intros [(a & y & b & El & Ha) (a' & k2 & b' & El' & E2 & Hb)].
        destruct (snoc_split _ _ _ _ _ El') as [(-> & -> & EP)|(b2 & -> & El2)].
        -- injection EP as -> ->. left. split; [exact E2|]. split; [reflexivity|].
           destruct (snoc_split _ _ _ _ _ El) as [(-> & -> & EP)|(b3 & -> & El3)].
           ++ injection EP as -> ->. right. split; [reflexivity|]. intros k0 H0. apply in_map_iff in H0 as ([k1 z] & <- & H0). apply H2 in H0 as [(a2 & y2 & b2 & E3 & _) _].
              cbn [fst]. destruct (key_eq B k k1) eqn:F; [|reflexivity]. apply ES in F. assert (G : key_eq B k1 k = false) by (apply (Ha (k1, y2)); rewrite E3; apply in_or_app; right; now left). congruence.
           ++ left. apply HK. exists a, y, b3. auto.
        -- right. assert (NE : key_eq B k k' = false) by (apply (Hb (k, v)); apply in_or_app; right; now left). split; [exact NE|]. apply H2. split.
           ++ destruct (snoc_split _ _ _ _ _ El) as [(-> & -> & EP)|(b3 & -> & El3)]; [injection EP as -> ->; rewrite ER in NE; discriminate|]. exists a, y, b3. auto.
           ++ exists a', k2, b2. split; [exact El2|]. split; [exact E2|]. intros p Hp. apply Hb. apply in_or_app. auto.
Qed.

(** ** constructors that stop *)
Lemma bytes_from_good (g : list (M W obj)) : forall acc w, Forall (gives (is_byte B)) g ->
  bytes_from B g acc w = (let* l := take_all g in ret (acc ++ l)) w.
Proof.
  induction g as [|m g IH]; intros acc w H; [unfold bind, ret; cbn; now rewrite app_nil_r|]. inversion H as [|? ? H1 H2]; subst.
  unfold take_all. cbn [bytes_from mapM]. rewrite bind_assoc. apply bind_ext; [reflexivity|]. intros x w1 E. rewrite bind_assoc.
  rewrite (H1 _ _ _ E), IH by assumption. unfold bind, ret, take_all.
  destruct (mapM (fun m0 => m0) g w1) as [[l|e] w2]; [|reflexivity]. now rewrite <- app_assoc.
Qed.
Lemma stops_at {X} (step : list (M W obj) -> list obj -> M W X) (good : obj -> bool) (stop : obj -> M W X) (add : obj -> list obj -> list obj) :
  (forall m r acc w, step (m :: r) acc w = (let* x := m in if good x then step r (add x acc) else stop x) w) ->
  forall elt l1 l1' acc w w1 e e' w2 r,
  mapM elt l1 w = (Ok l1', w1) -> Forall (fun x => good x = true) l1' -> elt e w1 = (Ok e', w2) -> good e' = false ->
  step (map elt l1 ++ elt e :: r) acc w = stop e' w2.
Proof.
  intros HS elt. induction l1 as [|x l1 IH]; intros l1' acc w w1 e e' w2 r H1 HF He HB.
  - cbn in H1. injection H1 as <- <-. cbn [map app]. rewrite HS. unfold bind. rewrite He, HB. reflexivity.
  - cbn in H1. unfold bind, ret in H1. destruct (elt x w) as [[y|?] w3] eqn:Ex; [|discriminate].
    destruct (mapM elt l1 w3) as [[ys|?] w4] eqn:Em; [|discriminate]. injection H1 as <- <-. inversion HF; subst.
    cbn [map app]. rewrite HS. unfold bind. rewrite Ex. rewrite H1. eapply IH; eassumption.
Qed.
Lemma on_demand_stops {X} (step : list (M W obj) -> list obj -> M W X) (good : obj -> bool) (stop : obj -> M W X) (add : obj -> list obj -> list obj) (fin : X -> M W obj) rk c :
  (forall m r acc w, step (m :: r) acc w = (let* x := m in if good x then step r (add x acc) else stop x) w) ->
  (forall g w, construct_from B rk c g w = (let* l := step g [] in fin l) w) ->
  forall elt v l1 l1' w w1 e e' w2 r dn,
  mapM elt l1 w = (Ok l1', w1) -> Forall (fun x => good x = true) l1' -> elt e w1 = (Ok e', w2) -> good e' = false -> (e' <> e \/ l1' <> l1) ->
  Forall (fun x => good x = true) dn ->
  fill_on_demand B same rk elt v c dn (l1 ++ e :: r) w = (let* l := stop e' in fin l) w2.
Proof.
  intros HS HC elt v. induction l1 as [|x l1 IH]; intros l1' w w1 e e' w2 r dn H1 HF He HB HN HD.
  - cbn in H1. injection H1 as <- <-. cbn [app fill_on_demand]. unfold bind at 1. rewrite He. destruct (SP e' e) as [->|N]; [destruct HN; congruence|].
    rewrite HC. unfold bind. cut (step (map ret dn ++ ret e' :: map elt r) [] w2 = stop e' w2); [intros ->; reflexivity|].
    generalize (@nil obj) as acc. clear - HS HB HD. induction HD as [|y dn Hy HD IH]; intros acc; cbn [map app]; rewrite HS; unfold bind at 1; cbn [ret]; [rewrite HB; reflexivity|].
    rewrite Hy. apply IH.
  - cbn in H1. unfold bind, ret in H1. destruct (elt x w) as [[y|?] w3] eqn:Ex; [|discriminate].
    destruct (mapM elt l1 w3) as [[ys|?] w4] eqn:Em; [|discriminate]. injection H1 as <- <-. inversion HF; subst.
    cbn [app fill_on_demand]. unfold bind at 1. rewrite Ex. destruct (SP y x) as [->|N].
    + eapply IH; try eassumption; [destruct HN as [HN|HN]; [left; exact HN|right; congruence]|]. apply Forall_app. split; [exact HD|]. constructor; [assumption|constructor].
    + rewrite HC. unfold bind at 1. rewrite map_app. cbn [map].
      cut (step (map ret dn ++ ret y :: (map elt l1 ++ elt e :: map elt r)) [] w3 = stop e' w2); [intros ->; reflexivity|].
      generalize (@nil obj) as acc. induction HD as [|z dn Hz HD IHd]; intros acc; cbn [map app]; rewrite HS; unfold bind at 1; cbn [ret].
      * rewrite H1. eapply stops_at; eassumption.
      * rewrite Hz. apply IHd.
Qed.
End ContProofs.

Lemma c128_sequences_partial_proof : forall {obj W} (B : Builtins obj W) same rk elt v w,
  identity same ->
  (forall l, view B v = Some (CList l) ->
     validate_on_demand B same rk elt v w = all_filled same elt (fun l' => fresh B (CList l')) v l w) /\
  (forall l, view B v = Some (CTuple l) ->
     validate_on_demand B same rk elt v w = all_filled same elt (fun l' => fresh B (CTuple l')) v l w) /\
  (forall m l, view B v = Some (CDeque m l) -> match m with Some n => List.length l <= n | None => True end ->
     validate_on_demand B same RkDeque elt v w = all_filled same elt (fun l' => fresh B (CDeque m l')) v l w).
Proof.
  intros obj W B same rk elt v w SP. unfold validate_on_demand.
  split; [|split].
  - intros l ->. cbn [contents]. rewrite (on_demand B same SP rk elt v _ (fun l' => fresh B (CList l')) (fun _ => true)); auto using any_gives.
  - intros l ->. cbn [contents]. rewrite (on_demand B same SP rk elt v _ (fun l' => fresh B (CTuple l')) (fun _ => true)); auto using any_gives.
  - intros m l -> Hm. cbn [contents].
    rewrite (on_demand B same SP RkDeque elt v (CDeque m l) (fun l' => fresh B (CDeque m (last_n m l'))) (fun _ => true)); auto using any_gives.
    unfold all_filled, bind. destruct (mapM elt l w) as [[l'|e] w1] eqn:E; [|reflexivity].
    destruct (forallb _ _); [reflexivity|]. cbn [app]. rewrite last_n_all; [reflexivity|].
    apply mapM_len in E. rewrite E. exact Hm.
Qed.

Lemma c128_sets_partial_proof : forall {obj W} (B : Builtins obj W) same rk elt v w,
  identity same -> (forall x w y w', elt x w = (Ok y, w') -> hashable B y = true) ->
  exists kept,
    (forall l, view B v = Some (CSet l) ->
       validate_on_demand B same rk elt v w = all_filled same elt (fun l' => fresh B (CSet (set_iter B (kept l')))) v l w) /\
    (forall l, view B v = Some (CFrozen l) ->
       validate_on_demand B same rk elt v w = all_filled same elt (fun l' => fresh B (CFrozen (set_iter B (kept l')))) v l w) /\
    forall l', set_of (key_eq B) l' (kept l') /\
               (all_different (key_eq B) l' = true -> kept l' = l') /\
               (all_different (key_eq B) l' = false -> List.length (kept l') < List.length l').
Proof.
  intros obj W B same rk elt v w SP HH. exists (fun l' => put_all B l' []). split; [|split].
  - intros l Hv. unfold validate_on_demand. rewrite Hv. cbn [contents].
    rewrite (on_demand B same SP rk elt v (CSet l) (fun l' => fresh B (CSet (set_iter B (put_all B l' [])))) (hashable B)); auto.
    + intros g w0 Hg. cbn [construct_from]. unfold bind. rewrite set_from_good by exact Hg.
      unfold bind, ret. now destruct (take_all g w0) as [[r|e] w1].
  - intros l Hv. unfold validate_on_demand. rewrite Hv. cbn [contents].
    rewrite (on_demand B same SP rk elt v (CFrozen l) (fun l' => fresh B (CFrozen (set_iter B (put_all B l' [])))) (hashable B)); auto.
    + intros g w0 Hg. cbn [construct_from]. unfold bind. rewrite set_from_good by exact Hg.
      unfold bind, ret. now destruct (take_all g w0) as [[r|e] w1].
  - intros l'. split; [apply put_all_set|]. split; intros H.
    + apply (put_all_different B l' []); auto. intros x y _ [].
    + apply (put_all_collides B l' []). now left.
Qed.

Lemma c128_bytes_partial_proof : forall {obj W} (B : Builtins obj W) same rk elt v w l,
  identity same -> (forall x w y w', elt x w = (Ok y, w') -> is_byte B y = true) ->
  view B v = Some (CBytes l) ->
  validate_on_demand B same rk elt v w = all_filled same elt (fun l' => fresh B (CBytes l')) v l w.
Proof.
  intros obj W B same rk elt v w l SP HH Hv. unfold validate_on_demand. rewrite Hv. cbn [contents].
  rewrite (on_demand B same SP rk elt v (CBytes l) (fun l' => fresh B (CBytes l')) (is_byte B)); auto.
  intros g w0 Hg. cbn [construct_from]. unfold bind. rewrite bytes_from_good by exact Hg.
  unfold bind, ret. now destruct (take_all g w0) as [[r|e] w1].
Qed.

Lemma c128_elements_refuted_proof : forall {obj W} (B : Builtins obj W) same rk elt v c l1 e l2 l1' e' w w1 w2,
  identity same -> view B v = Some c -> contents c = l1 ++ e :: l2 ->
  mapM elt l1 w = (Ok l1', w1) -> elt e w1 = (Ok e', w2) -> (e' <> e \/ l1' <> l1) ->
  match c with
  | CSet _ | CFrozen _ => Forall (fun x => hashable B x = true) l1' -> hashable B e' = false ->
      exists m, validate_on_demand B same rk elt v w = (Raise (mkexc TypeError m), w2)
  | CBytes _ => Forall (fun x => is_byte B x = true) l1' -> is_byte B e' = false ->
      exists m, validate_on_demand B same rk elt v w = (Raise (mkexc (if is_int B e' then ValueError else TypeError) m), w2)
  | _ => True
  end.
Proof.
  intros obj W B same rk elt v c l1 e l2 l1' e' w w1 w2 SP Hv Hc H1 He HN. unfold validate_on_demand. rewrite Hv, Hc.
  destruct c; auto; intros HF HB.
  - eexists. rewrite (on_demand_stops B same SP (set_from B) (hashable B) (fun _ => raise (unhashable)) (set_put B) (fun l => fresh B (CSet (set_iter B l)))) with (l1' := l1') (w1 := w1) (e' := e') (w2 := w2); auto; reflexivity.
  - eexists. rewrite (on_demand_stops B same SP (set_from B) (hashable B) (fun _ => raise (unhashable)) (set_put B) (fun l => fresh B (CFrozen (set_iter B l)))) with (l1' := l1') (w1 := w1) (e' := e') (w2 := w2); auto; reflexivity.
  - eexists. rewrite (on_demand_stops B same SP (bytes_from B) (is_byte B)
      (fun x => if is_int B x then raise (mkexc ValueError "bytes must be in range(0, 256)") else raise (mkexc TypeError "object cannot be interpreted as an integer"))
      (fun x acc => acc ++ [x]) (fun l => fresh B (CBytes l))) with (l1' := l1') (w1 := w1) (e' := e') (w2 := w2); auto.
    unfold bind. instantiate (1 := if is_int B e' then _ else _). destruct (is_int B e'); reflexivity.
Qed.

Lemma c128_on_demand_proof : forall {obj ty W} (P : Py obj ty W) (B : Builtins obj W) dflt rk t h toks ops f,
  standard P B -> plain_class P t ->
  make_filler P dflt (HAnn (HIter rk t h) toks) ops = Ok f ->
  exists f0 g,
    make_filler P dflt (HAnn (HTy t) toks) (own_only (own_ops ops)) = Ok f0 /\
    make_filler P dflt h (own_only (sub_ops ops 0)) = Ok g /\
    forall x w,
    (forall z w1, call P f0 x w = (Ok z, w1) -> exists c, view B z = Some c /\ runs_through c = true) ->
    call P f x w =
      (let* z := call P f0 x in
       if hollow_hint dflt no_sub_tokens (sub_ops ops 0) [] h then ret z
       else validate_on_demand B (py_is P) rk (call P g) z) w.
Proof.
  intros obj ty W P B dflt rk t h toks ops f HS HP HM.
  destruct (Filler_main.c10_elements_proof P dflt rk t h toks ops f HP HM) as (f0 & g & H1 & H2 & H3).
  exists f0, g. split; [exact H1|]. split; [exact H2|]. intros x w HC. rewrite H3.
  unfold bind. destruct (call P f0 x w) as [[z|e] w1] eqn:E; [|reflexivity].
  destruct (hollow_hint _ _ _ _ h); [reflexivity|].
  destruct (HC z w1 eq_refl) as (c & Hv & Hr). destruct (HS z c Hv) as [HE HR].
  unfold fill_elements, validate_on_demand. rewrite HE, Hv.
  rewrite (on_demand B (py_is P) (fun x y => iff_sym (reflect_iff _ _ (py_isP P x y))) rk (call P g) z c (fun l => rebuild P rk z l) (fun _ => true)); auto using any_gives.
  - unfold bind. destruct (mapM (call P g) (contents c) w1) as [[l'|e] w2] eqn:EM; [|reflexivity].
    cbn [app].
    assert (K : forall l l', List.length l' = List.length l -> same_objects P l l' = forallb (fun p => py_is P (fst p) (snd p)) (combine l l')).
    { induction l as [|a l IH]; intros [|b l''] HL; cbn in *; try discriminate; auto. f_equal. apply IH. congruence. }
    rewrite K; [reflexivity|]. eapply mapM_len; eassumption.
  - intros gs w2 _. rewrite construct_runs by exact Hr. apply bind_same. intros l w3. now rewrite HR.
Qed.

Lemma c128_str_refuted_proof : forall {obj W} (B : Builtins obj W) same rk elt v l1 e l2 e' w w1 w2,
  identity same -> view B v = Some (CStr (l1 ++ e :: l2)) ->
  mapM elt l1 w = (Ok l1, w1) -> elt e w1 = (Ok e', w2) -> e' <> e ->
  validate_on_demand B same rk elt v w = fresh B (CStr (iterator_text B)) w2.
Proof.
  intros obj W B same rk elt v l1 e l2 e' w w1 w2 SP Hv H1 He N. unfold validate_on_demand. rewrite Hv. cbn [contents].
  exact (up_to_changed B same SP rk elt v _ l1 [] w w1 e l2 e' w2 H1 He N).
Qed.

Lemma c128_classes_refuted_proof : forall {obj W} (B : Builtins obj W) same rk elt v c l1 e l2 e' w w1 w2,
  identity same -> view B v = Some c -> contents c = l1 ++ e :: l2 ->
  mapM elt l1 w = (Ok l1, w1) -> elt e w1 = (Ok e', w2) -> e' <> e ->
  match c with
  | CRange _ => exists m, validate_on_demand B same rk elt v w = (Raise (mkexc TypeError m), w2)
  | CNamed n [_] => validate_on_demand B same rk elt v w = fresh B (CNamed n [iterator B]) w2
  | CNamed n _ => exists m, validate_on_demand B same rk elt v w = (Raise (mkexc TypeError m), w2)
  | _ => True
  end.
Proof.
  intros obj W B same rk elt v c l1 e l2 e' w w1 w2 SP Hv Hc H1 He N.
  assert (K : validate_on_demand B same rk elt v w = construct_from B rk c (map ret l1 ++ ret e' :: map elt l2) w2).
  { unfold validate_on_demand. rewrite Hv, Hc. exact (up_to_changed B same SP rk elt v _ l1 [] w w1 e l2 e' w2 H1 He N). }
  destruct c; auto.
  - rewrite K. cbn [construct_from]. destruct l as [|? [|? ?]]; try reflexivity; eexists; reflexivity.
  - rewrite K. eexists. reflexivity.
Qed.

Lemma c128_maxlen_refuted_proof : forall {obj W} (B : Builtins obj W) same elt v m l w,
  identity same -> view B v = Some (CDeque m l) ->
  validate_on_demand B same RkPlain elt v w = all_filled same elt (fun l' => fresh B (CDeque None l')) v l w.
Proof.
  intros obj W B same elt v m l w SP Hv. unfold validate_on_demand. rewrite Hv. cbn [contents].
  rewrite (on_demand B same SP RkPlain elt v (CDeque m l) (fun l' => fresh B (CDeque None l')) (fun _ => true)); auto using any_gives.
Qed.

Lemma c128_mappings_partial_proof : forall {obj W} (B : Builtins obj W) same rk fk fv v m w l' w1,
  view_map B v = Some m ->
  mapM (fun kv : obj * obj => let* k := fk (fst kv) in let* x := fv (snd kv) in ret (k, x)) (pairs_of m) w = (Ok l', w1) ->
  (forall kv, In kv l' -> hashable B (fst kv) = true) -> all_different (key_eq B) (map fst l') = true ->
  (forall l, m = MDict l -> validate_map B same rk fk fv v w = all_items_filled same fk fv (fun l => fresh_map B (MDict l)) v l w) /\
  (forall l, m = MOrdered l -> validate_map B same rk fk fv v w = all_items_filled same fk fv (fun l => fresh_map B (MOrdered l)) v l w) /\
  (forall f l, m = MDefault f l -> validate_map B same RkDefaultDict fk fv v w = all_items_filled same fk fv (fun l => fresh_map B (MDefault f l)) v l w).
Proof.
  intros obj W B same rk fk fv v m w l' w1 Hv HM HH HD. unfold validate_map, all_items_filled. rewrite Hv.
  assert (K : forall w, dict_from B l' [] w = (Ok l', w)).
  { intros w0. rewrite dict_from_good by exact HH. rewrite put_items_different; auto. intros x y _ []. }
  repeat split; intros; subst m; cbn [pairs_of] in *; unfold bind in HM |- *; rewrite HM; destruct (forallb _ _); try reflexivity;
  cbn [construct_map]; unfold bind; rewrite K; reflexivity.
Qed.

Lemma c128_collision_refuted_proof : forall {obj W} (B : Builtins obj W) same rk fk fv v l w l' w1,
  view_map B v = Some (MDict l) ->
  mapM (fun kv : obj * obj => let* k := fk (fst kv) in let* x := fv (snd kv) in ret (k, x)) l w = (Ok l', w1) ->
  map fst l' <> map fst l -> identity same ->
  (forall kv, In kv l' -> hashable B (fst kv) = true) -> all_different (key_eq B) (map fst l') = false ->
  exists l'', validate_map B same rk fk fv v w = fresh_map B (MDict l'') w1 /\ List.length l'' < List.length l /\
    (equivalence (key_eq B) -> dict_of (key_eq B) l' l'').
Proof.
  intros obj W B same rk fk fv v l w l' w1 Hv HM HN SP HH HD. unfold validate_map. rewrite Hv. cbn [pairs_of].
  exists (put_items B l' []). unfold bind at 1. rewrite HM. pose proof (mapM_len _ _ _ _ _ HM) as HL. split.
  - destruct (forallb _ _) eqn:E.
    + exfalso. apply HN. clear -E HL SP. revert l' E HL. induction l as [|[k x] l IH]; intros [|[k' x'] l'] E HL; cbn in *; try discriminate; auto.
      apply andb_prop in E as [E1 E2]. apply andb_prop in E1 as [E1 _]. apply SP in E1. subst. f_equal. apply IH; auto.
    + cbn [construct_map]. unfold bind. rewrite dict_from_good by exact HH. reflexivity.
  - split; [|apply put_items_dict]. rewrite <- HL, <- (map_length fst l'), <- (map_length fst (put_items B l' [])), put_items_keys.
    apply (put_all_collides B (map fst l') []). now left.
Qed.

Lemma c128_defaultdict_refuted_proof : forall {obj W} (B : Builtins obj W) same fk fv v f l w l' w1,
  view_map B v = Some (MDefault f l) ->
  mapM (fun kv : obj * obj => let* k := fk (fst kv) in let* x := fv (snd kv) in ret (k, x)) l w = (Ok l', w1) ->
  l' <> l -> identity same ->
  exists e, validate_map B same RkPlain fk fv v w = (Raise (mkexc TypeError e), w1).
Proof.
  intros obj W B same fk fv v f l w l' w1 Hv HM HN SP. unfold validate_map. rewrite Hv. cbn [pairs_of]. unfold bind at 1. rewrite HM.
  rewrite (items_changed same SP l l' (mapM_len _ _ _ _ _ HM) HN). eexists. reflexivity.
Qed.

Lemma c128_counter_refuted_proof : forall {obj W} (B : Builtins obj W) same rk fk fv v l w l' w1,
  view_map B v = Some (MCounter l) ->
  mapM (fun kv : obj * obj => let* k := fk (fst kv) in let* x := fv (snd kv) in ret (k, x)) l w = (Ok l', w1) ->
  l' <> l -> identity same -> (forall k x, hashable B (pair_obj B k x) = true) ->
  exists l'', validate_map B same rk fk fv v w = fresh_map B (MCounter l'') w1 /\
    forall p n, In (p, n) l'' -> (exists k x, In (k, x) l' /\ p = pair_obj B k x) /\ (exists c, 1 <= c /\ n = int_obj B c).
Proof.
  intros obj W B same rk fk fv v l w l' w1 Hv HM HN SP HH. unfold validate_map. rewrite Hv. cbn [pairs_of]. unfold bind at 1. rewrite HM.
  rewrite (items_changed same SP l l' (mapM_len _ _ _ _ _ HM) HN). cbn [construct_map].
  destruct (count_items_ok B l' HH [] w1) as [cs Hcs].
  exists (map (fun pn => (fst pn, int_obj B (snd pn))) cs). unfold bind. rewrite Hcs. split; [reflexivity|].
  intros p n Hp. apply in_map_iff in Hp as ((q & c) & Hq & Hin). injection Hq as <- <-.
  destruct (count_items_keys B l' [] w1 cs w1 Hcs ltac:(intros ? ? []) q c Hin) as [G1 [[]|G2]].
  split; [exact G2|]. exists c. auto.
Qed.
