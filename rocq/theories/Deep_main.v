(** Deep_main.v -- proofs of the properties stated in Props_Deep.v: deep copies of structures *)

From Verif Require Import Base Deep Spec_Deep.
Open Scope string_scope.
Open Scope list_scope.

Section Deep.
Variable old : list node.
Notation N := (List.length old).
Notation next := (next old).
Notation add_copy := (add_copy old).
Notation fill_copy := (fill_copy old).

Definition rel (m : list (nat * nat)) (a b : nat) : Prop := assoc a m = Some b \/ (inert old a /\ b = a).

Record inv (pend : list nat) (s : state) : Prop := {
  i_key : forall x y, assoc x (memo s) = Some y -> x < N /\ N <= y < next s /\ ~ inert old x;
  i_inj : forall x x' y, assoc x (memo s) = Some y -> assoc x' (memo s) = Some y -> x = x';
  i_match : forall x y, assoc x (memo s) = Some y -> ~ In y pend ->
    exists n n', nth_error old x = Some n /\ nth_error (made s) (y - N) = Some n' /\ alike (rel (memo s)) n n'
}.
Definition extends (m m' : list (nat * nat)) : Prop := forall x y, assoc x m = Some y -> assoc x m' = Some y.
Definition grows (s s' : state) : Prop :=
  extends (memo s) (memo s') /\ List.length (made s) <= List.length (made s') /\
  forall i, i < List.length (made s) -> nth_error (made s') i = nth_error (made s) i.

Lemma grows_trans : forall a b c, grows a b -> grows b c -> grows a c.
Proof.
  intros a b c (E1 & L1 & N1) (E2 & L2 & N2). split; [intros x y H; apply E2; apply E1; exact H|]. split; [lia|].
  intros i H. rewrite N2 by lia. apply N1. exact H.
Qed.
Lemma grows_refl : forall a, grows a a.
Proof. intro a. split; [intros x y H; exact H|]. split; [lia|reflexivity]. Qed.

Lemma rel_extends : forall m m' a b, extends m m' -> rel m a b -> rel m' a b.
Proof. intros m m' a b H [E|E]; [left; apply H; exact E|right; exact E]. Qed.
Lemma rels_extends : forall m m' xs ys, extends m m' -> Forall2 (rel m) xs ys -> Forall2 (rel m') xs ys.
Proof. intros m m' xs ys H F. induction F; constructor; [eapply rel_extends; eassumption|assumption]. Qed.
Lemma alike_extends : forall m m' n n', extends m m' -> alike (rel m) n n' -> alike (rel m') n n'.
Proof. intros m m' n n' H A. destruct A; constructor; try assumption; eapply rels_extends; eassumption. Qed.

Lemma assoc_other : forall x k v m, k <> x -> assoc x ((k, v) :: m) = assoc x m.
Proof. intros x k v m H. cbn. destruct (Nat.eqb_spec k x); [contradiction|reflexivity]. Qed.
Lemma assoc_same : forall k v m, assoc k ((k, v) :: m) = Some v.
Proof. intros. cbn. rewrite Nat.eqb_refl. reflexivity. Qed.

Lemma add_grows : forall x n s, assoc x (memo s) = None -> grows s (add_copy x n s).
Proof.
  intros x n s H. split; [|split].
  - intros a b E. unfold add_copy. cbn [memo]. rewrite assoc_other; [exact E|]. intros ->. congruence.
  - cbn [made Deep.add_copy]. rewrite app_length. lia.
  - intros i HI. cbn [made Deep.add_copy]. apply nth_error_app1. exact HI.
Qed.

(** a copy is added; it is pending or like the original *)
Lemma add_inv : forall x n n' pend pend' s, inv pend s -> assoc x (memo s) = None -> x < N -> ~ inert old x ->
  (forall p, In p pend -> In p pend') -> (forall p, In p pend -> p < next s) ->
  (In (next s) pend' \/ (nth_error old x = Some n /\ alike (rel ((x, next s) :: memo s)) n n')) ->
  (forall p, In p pend' -> In p pend \/ p = next s) ->
  inv pend' (add_copy x n' s).
Proof.
  intros x n n' pend pend' s I HA HX HI HP HB HM HQ.
  assert (G : grows s (add_copy x n' s)) by (apply add_grows; exact HA).
  constructor.
  - intros a b E. unfold Deep.add_copy in E. cbn [memo] in E. assert (L : next (add_copy x n' s) = S (next s)).
    { unfold Deep.next, Deep.add_copy. cbn [made]. rewrite app_length. cbn. lia. }
    rewrite L. destruct (Nat.eq_dec x a) as [<-|NE].
    + rewrite assoc_same in E. injection E as <-. split; [assumption|]. split; [|assumption]. unfold Deep.next. lia.
    + rewrite assoc_other in E by assumption. destruct (i_key pend s I a b E) as (K1 & K2 & K3). split; [assumption|]. split; [lia|assumption].
  - intros a a' b E E'. unfold Deep.add_copy in E, E'. cbn [memo] in E, E'.
    destruct (Nat.eq_dec x a) as [<-|NE]; destruct (Nat.eq_dec x a') as [<-|NE']; try reflexivity.
    + rewrite assoc_same in E. rewrite assoc_other in E' by assumption. injection E as <-. destruct (i_key pend s I _ _ E') as (_ & K & _). lia.
    + rewrite assoc_same in E'. rewrite assoc_other in E by assumption. injection E' as <-. destruct (i_key pend s I _ _ E) as (_ & K & _). lia.
    + rewrite assoc_other in E, E' by assumption. eapply i_inj; eassumption.
  - intros a b E HN. unfold Deep.add_copy in E |- *. cbn [memo made] in E |- *. destruct (Nat.eq_dec x a) as [<-|NE].
    + rewrite assoc_same in E. injection E as <-. destruct HM as [HM|[M1 M2]]; [contradiction|]. exists n, n'. split; [assumption|]. split; [|assumption].
      rewrite nth_error_app2 by (unfold Deep.next; lia). replace (_ - _) with 0 by (unfold Deep.next; lia). reflexivity.
    + rewrite assoc_other in E by assumption. destruct (i_match pend s I a b E) as (m & m' & M1 & M2 & M3); [intro H; apply HN, HP, H|].
      exists m, m'. split; [assumption|]. split; [rewrite nth_error_app1; [assumption|apply nth_error_Some; congruence]|].
      eapply alike_extends; [|eassumption]. exact (proj1 G).
Qed.

Lemma set_nth_same : forall l i n m, nth_error l i = Some m -> nth_error (set_nth i n l) i = Some n.
Proof. induction l as [|a l IH]; intros [|i] n m H; cbn in *; try discriminate; [reflexivity|]. eapply IH; eassumption. Qed.
Lemma set_nth_other : forall l i j n, i <> j -> nth_error (set_nth i n l) j = nth_error l j.
Proof. induction l as [|a l IH]; intros [|i] [|j] n H; cbn; try reflexivity; try congruence. apply IH. congruence. Qed.
Lemma set_nth_length : forall l i n, List.length (set_nth i n l) = List.length l.
Proof. induction l as [|a l IH]; intros [|i] n; cbn; try reflexivity. f_equal. apply IH. Qed.

Lemma fill_inv : forall x y n n' pend s, inv (y :: pend) s -> assoc x (memo s) = Some y ->
  nth_error old x = Some n -> alike (rel (memo s)) n n' -> inv pend (fill_copy y n' s).
Proof.
  intros x y n n' pend s I HA HX HM. destruct (i_key _ _ I x y HA) as (_ & KY & _). constructor.
  - intros a b E. cbn [memo Deep.fill_copy] in E. replace (next (fill_copy y n' s)) with (next s); [exact (i_key _ _ I a b E)|].
    unfold Deep.next, Deep.fill_copy. cbn [made]. rewrite set_nth_length. reflexivity.
  - exact (i_inj _ _ I).
  - intros a b E HN. cbn [memo Deep.fill_copy made] in *. destruct (Nat.eq_dec b y) as [->|NE].
    + rewrite (i_inj _ _ I _ _ _ E HA) in *. exists n, n'. split; [assumption|]. split; [|assumption].
      assert (L : y - N < List.length (made s)) by (unfold Deep.next in KY; lia). apply nth_error_Some in L.
      destruct (nth_error (made s) (y - N)) as [m|] eqn:EM; [|congruence]. eapply set_nth_same; eassumption.
    + destruct (i_match _ _ I a b E) as (m & m' & M1 & M2 & M3); [intros [H|H]; [congruence|contradiction]|].
      exists m, m'. split; [assumption|]. split; [|assumption]. destruct (i_key _ _ I a b E) as (_ & KB & _).
      rewrite set_nth_other by lia. assumption.
Qed.

Hypothesis HC : closed old.
Hypothesis HR : no_record_cycle old.

Definition adds (s s' : state) (P : nat -> Prop) : Prop := forall k, assoc k (memo s) = None -> assoc k (memo s') <> None -> P k.

Definition good (fuel : nat) : Prop :=
  forall pend x s y s', used s = true -> inv pend s -> (forall p, In p pend -> p < next s) -> x < N -> dcopy old fuel x s = Some (y, s') ->
    inv pend s' /\ grows s s' /\ used s' = true /\ rel (memo s') x y /\ adds s s' (fun k => k = x \/ reaches old x k).

Lemma each_good : forall fuel, good fuel -> forall pend xs s ys s', used s = true -> inv pend s -> (forall p, In p pend -> p < next s) ->
  Forall (fun x => x < N) xs -> each (dcopy old fuel) xs s = Some (ys, s') ->
  inv pend s' /\ grows s s' /\ used s' = true /\ Forall2 (rel (memo s')) xs ys /\ adds s s' (fun k => exists x, In x xs /\ (k = x \/ reaches old x k)).
Proof.
  intros fuel HG pend xs. induction xs as [|x xs IH]; intros s ys s' HU I HP HX H; cbn [each] in H.
  - injection H as <- <-. split; [assumption|]. split; [apply grows_refl|]. split; [assumption|]. split; [constructor|]. intros k H1 H2. contradiction.
  - destruct (dcopy old fuel x s) as [[y s1]|] eqn:E1; [|discriminate]. destruct (each (dcopy old fuel) xs s1) as [[ys1 s2]|] eqn:E2; [|discriminate].
    injection H as <- <-. inversion HX as [|? ? HX1 HX2]; subst.
    destruct (HG pend x s y s1 HU I HP HX1 E1) as (I1 & G1 & U1 & R1 & A1).
    assert (HP1 : forall p, In p pend -> p < next s1). { intros p Hp. specialize (HP p Hp). destruct G1 as (_ & L & _). unfold Deep.next in *. lia. }
    destruct (IH s1 ys1 s2 U1 I1 HP1 HX2 E2) as (I2 & G2 & U2 & R2 & A2). split; [assumption|]. split; [eapply grows_trans; eassumption|].
    split; [assumption|]. split; [constructor; [eapply rel_extends; [exact (proj1 G2)|exact R1]|assumption]|].
    intros k K1 K2. destruct (assoc k (memo s1)) as [v|] eqn:EK.
    + exists x. split; [left; reflexivity|]. apply A1; [assumption|congruence].
    + destruct (A2 k EK K2) as (z & Z1 & Z2). exists z. split; [right; assumption|assumption].
Qed.

Lemma children_lt : forall x n, nth_error old x = Some n -> Forall (fun c => c < N) (children n).
Proof. intros x n H. apply Forall_forall. intros c HI. eapply HC; eassumption. Qed.

Lemma inert_inv : forall x n, inert old x -> nth_error old x = Some n -> n = NAtom \/ exists xs, n = NTuple xs /\ Forall (inert old) xs.
Proof. intros x n H E. destruct H as [a H|a xs H F]; rewrite H in E; injection E as <-; [left; reflexivity|right; exists xs; split; [reflexivity|assumption]]. Qed.

Lemma combine_map : forall {A} (l : list (A * nat)), combine (map fst l) (map snd l) = l.
Proof. induction l as [|[a b] l IH]; cbn; congruence. Qed.

Lemma container_case : forall fuel, good fuel -> forall pend x n n0 mk s ys s1,
  (n = NList (children n) /\ n0 = NList [] /\ mk = NList \/ exists kvs, n = NDict kvs /\ n0 = NDict [] /\ mk = (fun ys => NDict (combine (map fst kvs) ys))) ->
  inv pend s -> (forall p, In p pend -> p < next s) -> x < N -> nth_error old x = Some n -> assoc x (memo s) = None ->
  each (dcopy old fuel) (children n) (add_copy x n0 s) = Some (ys, s1) ->
  let s' := fill_copy (next s) (mk ys) s1 in
  inv pend s' /\ grows s s' /\ used s' = true /\ rel (memo s') x (next s) /\ adds s s' (fun k => k = x \/ reaches old x k).
Proof.
  intros fuel HG pend x n n0 mk s ys s1 HN I HP HX EX EA E s'.
  assert (NI : ~ inert old x).
  { intro HI. destruct (inert_inv x n HI EX) as [->|(xs & -> & _)]; destruct HN as [(H & _)|(kvs & H & _)]; discriminate. }
  assert (L0 : next (add_copy x n0 s) = S (next s)). { unfold Deep.next, Deep.add_copy. cbn [made]. rewrite app_length. cbn. lia. }
  assert (I0 : inv (next s :: pend) (add_copy x n0 s)).
  { eapply (add_inv x n); try eassumption; [intros p Hp; right; exact Hp|left; left; reflexivity|intros p [<-|Hp]; auto]. }
  destruct (each_good fuel HG (next s :: pend) (children n) (add_copy x n0 s) ys s1) as (I1 & G1 & U1 & R1 & A1); try assumption; try reflexivity.
  { intros p [<-|Hp]; [lia|]. specialize (HP p Hp). lia. }
  { eapply children_lt; eassumption. }
  assert (AX : assoc x (memo s1) = Some (next s)). { apply (proj1 G1). cbn [memo Deep.add_copy]. apply assoc_same. }
  split; [|split; [|split; [|split]]].
  - eapply fill_inv; try eassumption. destruct HN as [(H & _ & ->)|(kvs & -> & _ & ->)].
    + rewrite H. constructor. exact R1.
    + cbn [children] in R1. rewrite <- (combine_map kvs) at 1. apply alike_dict; [rewrite !map_length; reflexivity|exact R1].
  - pose proof (add_grows x n0 s EA) as G0. destruct (grows_trans _ _ _ G0 G1) as (GA & GB & GC). split; [exact GA|].
    unfold s'. cbn [made Deep.fill_copy]. split; [rewrite set_nth_length; exact GB|]. intros i Hi.
    rewrite set_nth_other by (unfold Deep.next; lia). apply GC. exact Hi.
  - exact U1.
  - left. exact AX.
  - intros k K1 K2. destruct (Nat.eq_dec k x) as [->|NE]; [left; reflexivity|]. right.
    assert (K0 : assoc k (memo (add_copy x n0 s)) = None) by (cbn [memo Deep.add_copy]; rewrite assoc_other by congruence; exact K1).
    destruct (A1 k K0 K2) as (z & Z1 & [->|Z2]); [eapply reaches_step; eassumption|eapply reaches_trans; eassumption].
Qed.

Lemma record_case : forall fuel, good fuel -> forall pend x c fs s ys s1,
  used s = true -> inv pend s -> (forall p, In p pend -> p < next s) -> x < N -> nth_error old x = Some (NRec c fs) -> assoc x (memo s) = None ->
  each (dcopy old fuel) (map snd fs) s = Some (ys, s1) ->
  let s' := add_copy x (NRec c (combine (map fst fs) ys)) s1 in
  inv pend s' /\ grows s s' /\ used s' = true /\ rel (memo s') x (next s1) /\ adds s s' (fun k => k = x \/ reaches old x k).
Proof.
  intros fuel HG pend x c fs s ys s1 HU I HP HX EX EA E s'.
  assert (NI : ~ inert old x). { intro HI. destruct (inert_inv x _ HI EX) as [H|(xs & H & _)]; discriminate. }
  destruct (each_good fuel HG pend (map snd fs) s ys s1) as (I1 & G1 & U1 & R1 & A1); try assumption.
  { exact (children_lt x _ EX). }
  assert (AX : assoc x (memo s1) = None).
  { destruct (assoc x (memo s1)) as [v|] eqn:EV; [|reflexivity]. exfalso. destruct (A1 x EA) as (z & Z1 & Z2); [congruence|].
    apply (HR x c fs EX). destruct Z2 as [<-|Z2]; [eapply reaches_step; eassumption|eapply reaches_trans; eassumption]. }
  pose proof (add_grows x (NRec c (combine (map fst fs) ys)) s1 AX) as G2.
  split; [|split; [|split; [|split]]].
  - eapply (add_inv x (NRec c fs)); try eassumption; [auto|intros p Hp; specialize (HP p Hp); destruct G1 as (_ & L & _); unfold Deep.next in *; lia| |auto].
    right. split; [assumption|]. rewrite <- (combine_map fs) at 1. apply alike_rec; [rewrite !map_length; reflexivity|].
    eapply rels_extends; [|exact R1]. exact (proj1 G2).
  - eapply grows_trans; eassumption.
  - reflexivity.
  - left. cbn [memo Deep.add_copy]. apply assoc_same.
  - intros k K1 K2. unfold s' in K2. cbn [memo Deep.add_copy] in K2. destruct (Nat.eq_dec k x) as [->|NE]; [left; reflexivity|]. right.
    rewrite assoc_other in K2 by congruence.
    destruct (A1 k K1 K2) as (z & Z1 & [->|Z2]); [eapply reaches_step; eassumption|eapply reaches_trans; eassumption].
Qed.

Lemma rel_self : forall pend s c, inv pend s -> c < N -> rel (memo s) c c -> inert old c.
Proof. intros pend s c I HL [E|[H _]]; [|assumption]. destruct (i_key _ _ I c c E) as (_ & K & _). lia. Qed.
Lemma rel_inert : forall pend s a b, inv pend s -> inert old a -> rel (memo s) a b -> b = a.
Proof. intros pend s a b I H [E|[_ E]]; [|assumption]. destruct (i_key _ _ I a b E) as (_ & _ & K). contradiction. Qed.

Theorem all_good : forall fuel, good fuel.
Proof.
  induction fuel as [|fuel IH]; intros pend x s y s' HU I HP HX H; [discriminate|]. cbn [dcopy] in H.
  destruct (assoc x (memo s)) as [v|] eqn:EA.
  { injection H as <- <-. split; [assumption|]. split; [apply grows_refl|]. split; [assumption|]. split; [left; assumption|]. intros k K1 K2. contradiction. }
  destruct (nth_error old x) as [n|] eqn:EX; [|apply nth_error_None in EX; lia].
  destruct n as [|xs|xs|kvs|c fs].
  - injection H as <- <-. split; [assumption|]. split; [apply grows_refl|]. split; [assumption|].
    split; [right; split; [apply inert_atom; assumption|reflexivity]|]. intros k K1 K2. contradiction.
  - destruct (each (dcopy old fuel) xs _) as [[ys s1]|] eqn:E; [|discriminate]. injection H as <- <-.
    eapply (container_case fuel IH pend x (NList xs) (NList []) NList); try eassumption. left. repeat split.
  - destruct (each (dcopy old fuel) xs s) as [[ys s1]|] eqn:E; [|discriminate].
    pose proof (children_lt x _ EX) as HL. cbn [children] in HL.
    destruct (each_good fuel IH pend xs s ys s1) as (I1 & G1 & U1 & R1 & A1); try assumption.
    assert (AD : adds s s1 (fun k => k = x \/ reaches old x k)).
    { intros k K1 K2. right. destruct (A1 k K1 K2) as (z & Z1 & [->|Z2]); [eapply reaches_step; eassumption|eapply reaches_trans; eassumption]. }
    destruct (assoc x (memo s1)) as [v|] eqn:EV.
    + injection H as <- <-. split; [assumption|]. split; [assumption|]. split; [assumption|]. split; [left; assumption|assumption].
    + unfold same_list in H. destruct (list_eq_dec Nat.eq_dec xs ys) as [EQ|NE].
      * injection H as <- <-. split; [assumption|]. split; [assumption|]. split; [assumption|]. split; [|assumption].
        right. split; [|reflexivity]. apply (inert_tuple old x xs EX). rewrite <- EQ in R1. clear - R1 HL I1.
        induction HL as [|c l HC' HL IHl]; [constructor|]. inversion R1; subst. constructor; [eapply rel_self; eassumption|apply IHl; assumption].
      * injection H as <- <-. pose proof (add_grows x (NTuple ys) s1 EV) as G2.
        assert (NI : ~ inert old x).
        { intro HI. destruct (inert_inv x _ HI EX) as [HD|(l & HD & HF)]; [discriminate|]. injection HD as <-. apply NE. clear - R1 HF I1.
          induction R1 as [|a b xs ys R _ IHr]; [reflexivity|]. inversion HF; subst. f_equal; [symmetry; eapply rel_inert; eassumption|apply IHr; assumption]. }
        split; [|split; [|split; [|split]]].
        -- eapply (add_inv x (NTuple xs)); try eassumption; [auto|intros p Hp; specialize (HP p Hp); destruct G1 as (_ & L & _); unfold Deep.next in *; lia| |auto].
           right. split; [assumption|]. constructor. eapply rels_extends; [exact (proj1 G2)|exact R1].
        -- eapply grows_trans; eassumption.
        -- reflexivity.
        -- left. cbn [memo Deep.add_copy]. apply assoc_same.
        -- intros k K1 K2. cbn [memo Deep.add_copy] in K2. destruct (Nat.eq_dec k x) as [->|NK]; [left; reflexivity|].
           rewrite assoc_other in K2 by congruence. apply AD; assumption.
  - destruct (each (dcopy old fuel) (map snd kvs) _) as [[ys s1]|] eqn:E; [|discriminate]. injection H as <- <-.
    eapply (container_case fuel IH pend x (NDict kvs) (NDict []) (fun ys => NDict (combine (map fst kvs) ys))); try eassumption.
    right. exists kvs. repeat split.
  - destruct (each (dcopy old fuel) (map snd fs) _) as [[ys s1]|] eqn:E; [|discriminate]. rewrite HU in H. injection H as <- <-.
    replace (State true (memo s) (made s)) with s in E by (destruct s; cbn in *; congruence).
    eapply record_case; eassumption.
Qed.

Lemma inv_empty : forall u, inv [] (State u [] []).
Proof. intro u. constructor; cbn; intros; discriminate. Qed.

(** the copy at the top *)
Lemma top_good : forall fuel x y s', x < N -> (forall xs, nth_error old x <> Some (NTuple xs)) -> dcopy old fuel x (State false [] []) = Some (y, s') ->
  exists s, inv [] s /\ rel (memo s) x y /\ made s = made s'.
Proof.
  intros [|fuel] x y s' HX HT H; [discriminate|]. cbn [dcopy assoc memo] in H.
  destruct (nth_error old x) as [n|] eqn:EX; [|apply nth_error_None in EX; lia].
  destruct n as [|xs|xs|kvs|c fs]; [| |destruct (HT xs eq_refl)| |].
  - injection H as <- <-. eexists. split; [apply (inv_empty false)|]. split; [right; split; [apply inert_atom; assumption|reflexivity]|reflexivity].
  - destruct (each (dcopy old fuel) xs _) as [[ys s1]|] eqn:E; [|discriminate]. injection H as <- <-.
    destruct (container_case fuel (all_good fuel) [] x (NList xs) (NList []) NList (State false [] []) ys s1) as (I & _ & _ & R & _); try eassumption; try reflexivity.
    { left. repeat split. } { apply inv_empty. } { intros p []. }
    eexists. split; [exact I|]. split; [exact R|reflexivity].
  - destruct (each (dcopy old fuel) (map snd kvs) _) as [[ys s1]|] eqn:E; [|discriminate]. injection H as <- <-.
    destruct (container_case fuel (all_good fuel) [] x (NDict kvs) (NDict []) (fun ys => NDict (combine (map fst kvs) ys)) (State false [] []) ys s1) as (I & _ & _ & R & _); try eassumption; try reflexivity.
    { right. exists kvs. repeat split. } { apply inv_empty. } { intros p []. }
    eexists. split; [exact I|]. split; [exact R|reflexivity].
  - destruct (each (dcopy old fuel) (map snd fs) _) as [[ys s1]|] eqn:E; [|discriminate]. cbn [used] in H. injection H as <- <-.
    destruct (record_case fuel (all_good fuel) [] x c fs (State true [] []) ys s1) as (I & _ & _ & R & _); try eassumption; try reflexivity.
    { apply inv_empty. } { intros p []. }
    eexists. split; [exact I|]. split; [exact R|reflexivity].
Qed.

Lemma inert_closed : forall a b, inert old a -> reaches old a b -> inert old b.
Proof.
  intros a b HI H. induction H as [a n b E HB|a n b c E HB _ IH].
  - destruct (inert_inv a n HI E) as [->|(xs & -> & HF)]; [destruct HB|]. eapply Forall_forall; eassumption.
  - apply IH. destruct (inert_inv a n HI E) as [->|(xs & -> & HF)]; [destruct HB|]. eapply Forall_forall; eassumption.
Qed.

Lemma forall2_in : forall {A B} (R : A -> B -> Prop) xs ys a, Forall2 R xs ys -> In a xs -> exists b, R a b.
Proof. intros A B R xs ys a H. induction H as [|x y xs ys HR' _ IH]; [intros []|]. intros [<-|HI]; [exists y; assumption|apply IH; assumption]. Qed.
Lemma map_snd_combine : forall {A} (ks : list A) (xs : list nat), List.length ks = List.length xs -> map snd (combine ks xs) = xs.
Proof. induction ks as [|k ks IH]; intros [|x xs] H; cbn in *; try discriminate; [reflexivity|]. f_equal. apply IH. congruence. Qed.
Lemma alike_child : forall R n n' a, alike R n n' -> In a (children n) -> exists b, R a b.
Proof.
  intros R n n' a H HI. destruct H as [xs ys F|xs ys F|ks xs ys L F|c ks xs ys L F]; cbn [children] in HI; try rewrite map_snd_combine in HI by assumption;
    eapply forall2_in; eassumption.
Qed.
Lemma reached : forall s, inv [] s -> forall a b, reaches old a b -> (exists y, rel (memo s) a y) -> exists y, rel (memo s) b y.
Proof.
  intros s I a b H. induction H as [a n b E HB|a n b c E HB _ IH]; intros (y & [A|[HI _]]).
  - destruct (i_match _ _ I a y A) as (m & m' & M1 & _ & M3); [intros []|]. assert (m = n) by congruence. subst m. eapply alike_child; eassumption.
  - exists b. right. split; [|reflexivity]. eapply inert_closed; [exact HI|eapply reaches_step; eassumption].
  - apply IH. destruct (i_match _ _ I a y A) as (m & m' & M1 & _ & M3); [intros []|]. assert (m = n) by congruence. subst m. eapply alike_child; eassumption.
  - apply IH. exists b. right. split; [|reflexivity]. eapply inert_closed; [exact HI|eapply reaches_step; eassumption].
Qed.
Lemma forall2_imp : forall {A B} (R S : A -> B -> Prop) xs ys, (forall a b, R a b -> S a b) -> Forall2 R xs ys -> Forall2 S xs ys.
Proof. intros A B R S xs ys H F. induction F; constructor; auto. Qed.
Lemma alike_imp : forall (R S : nat -> nat -> Prop) n n', (forall a b, R a b -> S a b) -> alike R n n' -> alike S n n'.
Proof. intros R S n n' H A. destruct A; constructor; try assumption; eapply forall2_imp; eassumption. Qed.

Lemma copy_of_state : forall s x y, inv [] s -> rel (memo s) x y -> exists f, f x = y /\ is_copy old (old ++ made s) x f.
Proof.
  intros s x y I HX. pose (f := fun a => match assoc a (memo s) with Some b => b | None => a end). exists f.
  assert (FR : forall a b, rel (memo s) a b -> b = f a).
  { intros a b [E|[HI ->]]; unfold f; [rewrite E; reflexivity|]. destruct (assoc a (memo s)) as [v|] eqn:E; [|reflexivity].
    destruct (i_key _ _ I a v E) as (_ & _ & K). contradiction. }
  assert (RE : forall a, a = x \/ reaches old x a -> rel (memo s) a (f a)).
  { intros a [->|H].
    - rewrite <- (FR x y HX). exact HX.
    - destruct (reached s I x a H (ex_intro _ y HX)) as (b & Hb). rewrite <- (FR a b Hb). exact Hb. }
  assert (LT : forall a, inert old a -> a < N). { intros a H. apply nth_error_Some. destruct H; congruence. }
  split; [symmetry; apply FR; exact HX|]. constructor.
  - intros a H. symmetry. apply FR. right. split; [assumption|reflexivity].
  - intros a Ha NI. destruct (RE a Ha) as [E|[HI _]]; [|contradiction]. destruct (i_key _ _ I a _ E) as (_ & K & _). split; [lia|].
    destruct (i_match _ _ I a _ E) as (n & n' & M1 & M2 & M3); [intros []|]. exists n, n'. split; [assumption|]. split; [rewrite nth_error_app2 by lia; assumption|].
    eapply alike_imp; [|eassumption]. exact FR.
  - intros a b Ha Hb E. destruct (RE a Ha) as [Ea|[Ia Ea]]; destruct (RE b Hb) as [Eb|[Ib Eb]].
    + eapply i_inj; [eassumption|exact Ea|rewrite E; exact Eb].
    + destruct (i_key _ _ I a _ Ea) as (_ & K & _). specialize (LT b Ib). lia.
    + destruct (i_key _ _ I b _ Eb) as (_ & K & _). specialize (LT a Ia). lia.
    + congruence.
  - intros a n E. rewrite nth_error_app1; [assumption|apply nth_error_Some; congruence].
Qed.
End Deep.

Lemma c118_sharing_partial_proof : forall old fuel x y new,
  closed old -> no_record_cycle old -> x < List.length old -> (forall xs, nth_error old x <> Some (NTuple xs)) ->
  deep_copy_of old fuel x = Some (y, new) ->
  exists f, f x = y /\ is_copy old new x f.
Proof.
  intros old fuel x y new HC HR HX HT H. unfold deep_copy_of in H. destruct (dcopy old fuel x (State false [] [])) as [[y' s']|] eqn:E; [|discriminate].
  injection H as <- <-. destruct (top_good old HC HR fuel x y' s' HX HT E) as (s & I & R & <-). apply copy_of_state; assumption.
Qed.

Lemma c118_ends_proof : forall old (rank : nat -> nat) x,
  (forall a n b, nth_error old a = Some n -> In b (children n) -> rank b < rank a) ->
  forall fuel, rank x < fuel -> exists y new, deep_copy_of old fuel x = Some (y, new).
Proof.
  intros old rank x HK.
  assert (D : forall fuel x s, rank x < fuel -> exists y s', dcopy old fuel x s = Some (y, s')).
  { clear x. induction fuel as [|fuel IH]; intros x s HL; [lia|]. cbn [dcopy].
    assert (EA : forall xs s0, (forall c, In c xs -> rank c < rank x) -> exists ys s1, each (dcopy old fuel) xs s0 = Some (ys, s1)).
    { induction xs as [|c xs IHx]; intros s0 HI; [do 2 eexists; reflexivity|]. cbn [each].
      destruct (IH c s0) as (y & s1 & E1); [specialize (HI c (or_introl eq_refl)); lia|]. rewrite E1.
      destruct (IHx s1) as (ys & s2 & E2); [intros; apply HI; right; assumption|]. rewrite E2. do 2 eexists; reflexivity. }
    destruct (assoc x (memo s)) as [v|]; [do 2 eexists; reflexivity|]. destruct (nth_error old x) as [n|] eqn:EX; [|do 2 eexists; reflexivity].
    specialize (HK x n). destruct n as [|xs|xs|kvs|c fs]; cbn [children] in HK.
    - do 2 eexists; reflexivity.
    - destruct (EA xs (add_copy old x (NList []) s)) as (ys & s1 & ->); [intros; apply HK; auto|]. do 2 eexists; reflexivity.
    - destruct (EA xs s) as (ys & s1 & ->); [intros; apply HK; auto|]. destruct (assoc x (memo s1)); [do 2 eexists; reflexivity|].
      destruct (same_list xs ys); do 2 eexists; reflexivity.
    - destruct (EA (map snd kvs) (add_copy old x (NDict []) s)) as (ys & s1 & ->); [intros; apply HK; auto|]. do 2 eexists; reflexivity.
    - destruct (EA (map snd fs) (State true (memo s) (made s))) as (ys & s1 & ->); [intros; apply HK; auto|]. do 2 eexists; reflexivity. }
  intros fuel HL. unfold deep_copy_of. destruct (D fuel x (State false [] []) HL) as (y & s & ->). do 2 eexists; reflexivity.
Qed.

Lemma c118_tuple_refuted_proof : exists old x r1 r2 l y new r1' r2' l1 l2,
  closed old /\ no_record_cycle old /\
  nth_error old x = Some (NTuple [r1; r2]) /\ nth_error old r1 = Some (NRec 0 [("x", l)]) /\ nth_error old r2 = Some (NRec 0 [("x", l)]) /\
  nth_error old l = Some (NList []) /\
  deep_copy_of old 5 x = Some (y, new) /\
  nth_error new y = Some (NTuple [r1'; r2']) /\ nth_error new r1' = Some (NRec 0 [("x", l1)]) /\ nth_error new r2' = Some (NRec 0 [("x", l2)]) /\
  l1 <> l2.
Proof.
  exists [NList []; NRec 0 [("x", 0)]; NRec 0 [("x", 0)]; NTuple [1; 2]], 3, 1, 2, 0. do 6 eexists. split; [|split].
  - intros a n b E HI. destruct a as [|[|[|[|a]]]]; cbn in E; [| | | |destruct a; discriminate]; injection E as <-; cbn in HI; cbn; lia.
  - intros a c fs E H. assert (R : forall a b, reaches [NList []; NRec 0 [("x", 0)]; NRec 0 [("x", 0)]; NTuple [1; 2]] a b -> b < a).
    { clear. intros a b H. induction H as [a n b E HI|a n b c E HI _ IH];
        (destruct a as [|[|[|[|a]]]]; cbn in E; [| | | |destruct a; discriminate]; injection E as <-; cbn in HI; lia). }
    specialize (R a a H). lia.
  - repeat (split; [reflexivity|]). discriminate.
Qed.

Lemma c118_self_refuted_proof : forall fuel, deep_copy_of [NRec 0 [("x", 0)]] fuel 0 = None.
Proof.
  assert (D : forall fuel u m, dcopy [NRec 0 [("x", 0)]] fuel 0 (State u [] m) = None).
  { induction fuel as [|fuel IH]; intros u m; [reflexivity|]. cbn [dcopy assoc memo nth_error map snd each]. rewrite IH. reflexivity. }
  intro fuel. unfold deep_copy_of. rewrite D. reflexivity.
Qed.

Lemma c118_cycle_refuted_proof : exists old r l y new l' r',
  closed old /\ nth_error old r = Some (NRec 0 [("x", l)]) /\ nth_error old l = Some (NList [r]) /\
  deep_copy_of old 5 r = Some (y, new) /\
  nth_error new y = Some (NRec 0 [("x", l')]) /\ nth_error new l' = Some (NList [r']) /\ r' <> y.
Proof.
  exists [NRec 0 [("x", 1)]; NList [0]], 0, 1. do 4 eexists. split.
  - intros a n b E HI. destruct a as [|[|a]]; cbn in E; [| |destruct a; discriminate]; injection E as <-; cbn in HI; cbn; lia.
  - repeat (split; [reflexivity|]). discriminate.
Qed.
