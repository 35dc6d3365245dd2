(** Tok_main.v -- proofs of the properties stated in Props_Tok.v: the built-in coercers and validators (records/fillers/validators.py, builtin_validators.py, coercers.py, std_fillers.py) *)

From Coq Require Import QArith Qround Lqa SpecFloat.
From Verif Require Import Base Py Filler Spec_Filler Runtime Demo Tokens Spec_Tokens DemoTok.
Open Scope Z_scope.
Open Scope string_scope.
Open Scope list_scope.

From Verif Require Float_proofs.
Ltac brk H := let W := fresh "W" in let I := fresh "I" in let T := fresh "T" in let N := fresh "N" in destruct H as (W & I & T & N).
Section Clamp.
Context {obj ty W : Type} (X : Ops obj ty W) (D : obj -> Prop) (lt : obj -> obj -> bool) (H : totally_ordered X D lt).
Lemma lt_asym : forall a b, D a -> D b -> lt a b = true -> lt b a = false.
Proof. brk H. intros a b Da Db E. destruct (lt b a) eqn:F; [|reflexivity]. pose proof (T a b a Da Db Da E F). specialize (I a Da). congruence. Qed.
Lemma cmp_gt : forall a b w, D a -> D b -> op_cmp X CGt a b w = (Ok (lt b a), w).
Proof. brk H. intros a b w Da Db. apply (W0 a b w Da Db). Qed.
Lemma cmp_lt : forall a b w, D a -> D b -> op_cmp X CLt a b w = (Ok (lt a b), w).
Proof. brk H. intros a b w Da Db. apply (W0 a b w Da Db). Qed.
Lemma cmp_le : forall a b w, D a -> D b -> op_cmp X CLe a b w = (Ok (negb (lt b a)), w).
Proof. brk H. intros a b w Da Db. apply (W0 a b w Da Db). Qed.
Lemma cmp_ge : forall a b w, D a -> D b -> op_cmp X CGe a b w = (Ok (negb (lt a b)), w).
Proof. brk H. intros a b w Da Db. apply (W0 a b w Da Db). Qed.
Definition max_of (v : obj) (ge : option obj) : obj := match ge with Some a => if lt v a then a else v | None => v end.
Definition min_of (v : obj) (le : option obj) : obj := match le with Some a => if lt a v then a else v | None => v end.
Lemma max_in : forall v ge, D v -> bound_in D ge -> D (max_of v ge).
Proof. intros v [a|] Dv B; cbn; [|assumption]. destruct (lt v a); [apply B; reflexivity|assumption]. Qed.
Lemma clamp_eq : forall ge le v w, D v -> bound_in D ge -> bound_in D le ->
  clamp X ge le v w = (Ok (min_of (max_of v ge) le), w).
Proof.
  intros ge le v w Dv Bg Bl. unfold clamp, bind.
  assert (py_max X v ge w = (Ok (max_of v ge), w)) as ->.
  { destruct ge as [a|]; cbn [py_max max_of]; [|reflexivity]. unfold bind. rewrite cmp_gt; [|apply Bg; reflexivity|assumption]. reflexivity. }
  pose proof (max_in v ge Dv Bg) as Dm. destruct le as [a|]; cbn [py_min min_of]; [|reflexivity].
  unfold bind. rewrite cmp_lt; [|apply Bl; reflexivity|assumption]. reflexivity.
Qed.
Lemma clamp_new_eq : forall ge le w, bound_in D ge -> bound_in D le ->
  clamp_new X ge le w = (if match ge, le with Some a, Some b => lt b a | _, _ => false end
                         then Raise (mkexc ValueError "the lower bound must not be greater then the upper bound") else Ok tt, w).
Proof.
  intros [a|] [b|] w Bg Bl; try reflexivity. unfold clamp_new, bind. rewrite cmp_gt; [|apply Bg; reflexivity|apply Bl; reflexivity].
  destruct (lt b a); reflexivity.
Qed.
End Clamp.

Lemma c63_clamp_proof : forall {obj ty W} (X : Ops obj ty W) D lt ge le v w w0 w1,
  totally_ordered X D lt -> D v -> bound_in D ge -> bound_in D le ->
  clamp_new X ge le w0 = (Ok tt, w1) ->
  exists r, clamp X ge le v w = (Ok r, w) /\
    above lt true ge r /\ below lt true le r /\
    (above lt true ge v -> below lt true le v -> r = v) /\
    (forall a, ge = Some a -> lt v a = true -> r = a) /\
    (forall b, le = Some b -> lt b v = true -> r = b).
Proof.
  intros obj ty W X D lt ge le v w w0 w1 H Dv Bg Bl E. rewrite (clamp_new_eq X D lt H) in E by assumption.
  exists (min_of lt (max_of lt v ge) le). split; [apply (clamp_eq X D lt H); assumption|].
  pose proof H as (_ & I & T & N).
  destruct ge as [a|], le as [b|]; cbn [max_of min_of]; unfold above, below.
  - assert (D a) as Da by (apply Bg; reflexivity). assert (D b) as Db by (apply Bl; reflexivity).
    destruct (lt b a) eqn:EB; [discriminate|]. destruct (lt v a) eqn:EA.
    + rewrite EB. repeat split; try (intros a' [= <-]); auto.
      * intros Ha _. specialize (Ha a eq_refl). congruence.
      * intros F. exfalso. pose proof (T b v a Db Dv Da F EA). congruence.
    + destruct (lt b v) eqn:EV; repeat split; try (intros a' [= <-]); auto.
      * intros _ Hb. specialize (Hb b eq_refl). congruence.
      * congruence.
      * congruence.
      * congruence.
  - assert (D a) as Da by (apply Bg; reflexivity). destruct (lt v a) eqn:EA; repeat split; try (intros a' [= <-]); auto; try discriminate.
    + intros Ha _. specialize (Ha a eq_refl). congruence.
    + congruence.
  - assert (D b) as Db by (apply Bl; reflexivity). destruct (lt b v) eqn:EA; repeat split; try (intros a' [= <-]); auto; try discriminate.
    + intros _ Ha. specialize (Ha b eq_refl). congruence.
    + congruence.
  - repeat split; try (intros a' [=]); auto.
Qed.

Lemma c63_refused_proof : forall {obj ty W} (X : Ops obj ty W) D lt ge le w,
  totally_ordered X D lt -> bound_in D ge -> bound_in D le ->
  (forall a b, ge = Some a -> le = Some b -> lt b a = true ->
     exists m, clamp_new X ge le w = (Raise (mkexc ValueError m), w)) /\
  ((forall a b, ge = Some a -> le = Some b -> lt b a = false) -> clamp_new X ge le w = (Ok tt, w)).
Proof.
  intros obj ty W X D lt ge le w H Bg Bl. rewrite (clamp_new_eq X D lt H) by assumption. split.
  - intros a b -> -> E. rewrite E. eexists. reflexivity.
  - intros F. destruct ge as [a|], le as [b|]; try reflexivity. rewrite (F a b); reflexivity.
Qed.

Lemma c63_idempotent_monotone_proof : forall {obj ty W} (X : Ops obj ty W) D lt ge le w w',
  totally_ordered X D lt -> bound_in D ge -> bound_in D le -> clamp_new X ge le w = (Ok tt, w') ->
  (forall v, D v -> exists r, clamp X ge le v w = (Ok r, w) /\ clamp X ge le r w = (Ok r, w)) /\
  (forall u v, D u -> D v -> lt v u = false ->
     exists r s, clamp X ge le u w = (Ok r, w) /\ clamp X ge le v w = (Ok s, w) /\ lt s r = false).
Proof.
  intros obj ty W X D lt ge le w w' H Bg Bl E.
  assert (forall v, D v -> D (min_of lt (max_of lt v ge) le)) as DR.
  { intros v Dv. pose proof (max_in D lt v ge Dv Bg) as Dm. destruct le as [b|]; cbn; [|assumption]. destruct (lt b _); [apply Bl; reflexivity|assumption]. }
  split.
  - intros v Dv. destruct (c63_clamp_proof X D lt ge le v w w w' H Dv Bg Bl E) as (r & E1 & A & B & _).
    exists r. split; [assumption|].
    assert (D r) as Dr. { rewrite (clamp_eq X D lt H) in E1 by assumption. injection E1 as <-. apply DR. assumption. }
    destruct (c63_clamp_proof X D lt ge le r w w w' H Dr Bg Bl E) as (r' & E2 & _ & _ & S & _). rewrite (S A B) in E2. assumption.
  - intros u v Du Dv L. exists (min_of lt (max_of lt u ge) le), (min_of lt (max_of lt v ge) le).
    rewrite !(clamp_eq X D lt H) by assumption. split; [reflexivity|]. split; [reflexivity|].
    pose proof H as (_ & I & T & N).
    assert (forall a b c, D a -> D b -> D c -> lt b a = false -> lt c b = false -> lt c a = false) as LE.
    { intros a b c Da Db Dc E1 E2. destruct (lt c a) eqn:F; [|reflexivity]. destruct (N c b a Dc Db Da F); congruence. }
    assert (forall a b, D a -> D b -> lt a b = true -> lt b a = false) as AS by (intros; apply (lt_asym X D lt H); assumption).
    assert (lt (max_of lt v ge) (max_of lt u ge) = false) as M1.
    { destruct ge as [a|]; cbn; [|assumption]. assert (D a) as Da by (apply Bg; reflexivity).
      destruct (lt v a) eqn:E1, (lt u a) eqn:E2; auto.
      apply (LE u v a); auto. }
    pose proof (max_in D lt u ge Du Bg) as Dmu. pose proof (max_in D lt v ge Dv Bg) as Dmv.
    destruct le as [b|]; cbn [min_of]; [|assumption]. assert (D b) as Db by (apply Bl; reflexivity).
    destruct (lt b (max_of lt v ge)) eqn:E1, (lt b (max_of lt u ge)) eqn:E2; auto.
    apply (LE b (max_of lt u ge) (max_of lt v ge)); auto.
Qed.

Lemma qle_not : forall a b, Qle_bool a b = false -> (b < a)%Q.
Proof.
  intros a b E. apply Qnot_le_lt. intro L. apply Qle_bool_iff in L. congruence.
Qed.
Lemma floor_range : forall a p, (0 < p)%Q ->
  (0 <= a - p * inject_Z (Qfloor (a / p)))%Q /\ (a - p * inject_Z (Qfloor (a / p)) < p)%Q.
Proof.
  intros a p HP. pose proof (Qfloor_le (a / p)) as L. pose proof (Qlt_floor (a / p)) as U.
  assert (a == (a / p) * p)%Q as E by (field; intro Z; rewrite Z in HP; discriminate HP).
  rewrite inject_Z_plus in U. set (q := inject_Z (Qfloor (a / p))) in *. set (r := (a / p)%Q) in *.
  split.
  - assert (q * p <= r * p)%Q by (apply Qmult_le_compat_r; [assumption|apply Qlt_le_weak; assumption]). rewrite E. lra.
  - assert (r * p < (q + 1) * p)%Q by (apply Qmult_lt_compat_r; assumption). rewrite E. lra.
Qed.
Lemma floor_range_neg : forall a p, (p < 0)%Q ->
  (p < a - p * inject_Z (Qfloor (a / p)))%Q /\ (a - p * inject_Z (Qfloor (a / p)) <= 0)%Q.
Proof.
  intros a p HP. destruct (floor_range (- a) (- p)) as [A B]; [lra|].
  assert (Qfloor (- a / - p) = Qfloor (a / p)) as E.
  { apply Qfloor_comp. field. intro Z. rewrite Z in HP. discriminate HP. }
  rewrite E in A, B. split; lra.
Qed.

Lemma c64_cyclic_proof : forall {obj ty W} (X : Ops obj ty W) D val lo hi v w,
  exact_numbers X D val -> D lo -> D hi -> D v -> (val lo < val hi)%Q ->
  exists r, cyclic X lo hi v w = (Ok r, w) /\ D r /\
    (val lo <= val r)%Q /\ (val r < val hi)%Q /\ congruent (val hi - val lo) (val r) (val v) /\
    ((val lo <= val v)%Q -> (val v < val hi)%Q -> r = v) /\
    cyclic X lo hi r w = (Ok r, w) /\
    forall q, (val lo <= q)%Q -> (q < val hi)%Q -> congruent (val hi - val lo) q (val v) -> (q == val r)%Q.
Proof.
  intros obj ty W X D val lo hi v w (HC & HS & HA & HM & _) Dl Dh Dv L.
  assert (forall x, D x -> (val lo <= val x)%Q -> (val x < val hi)%Q -> cyclic X lo hi x w = (Ok x, w)) as IN.
  { intros x Dx A B. unfold cyclic, bind. rewrite (proj2 (HC lo x w Dl Dx)).
    rewrite (proj2 (Qle_bool_iff _ _) A). rewrite (proj1 (HC x hi w Dx Dh)).
    destruct (Qle_bool (val hi) (val x)) eqn:E; [apply Qle_bool_iff in E; exfalso; lra|]. reflexivity. }
  assert (forall q r, (val lo <= r)%Q -> (r < val hi)%Q -> congruent (val hi - val lo) r (val v) ->
            (val lo <= q)%Q -> (q < val hi)%Q -> congruent (val hi - val lo) q (val v) -> (q == r)%Q) as UQ.
  { intros q r A B [k K] A' B' [k' K']. set (p := (val hi - val lo)%Q) in *.
    assert (0 < p)%Q by (unfold p; lra).
    assert (q - r == inject_Z (k' - k) * p)%Q as E.
    { rewrite K, K'. unfold Zminus. rewrite inject_Z_plus, inject_Z_opp. ring. }
    assert (q - r < p)%Q by (unfold p; lra). assert (- p < q - r)%Q by (unfold p; lra).
    assert (k' - k = 0) as Z.
    { destruct (Z.lt_trichotomy (k' - k) 0) as [T|[T|T]]; [|assumption|].
      - assert (k' - k <= -1) as T' by lia. rewrite Zle_Qle in T'. change (inject_Z (-1)) with (-1)%Q in T'.
        assert (inject_Z (k' - k) * p <= -1 * p)%Q by (apply Qmult_le_compat_r; [assumption|lra]). lra.
      - assert (1 <= k' - k) as T' by lia. rewrite Zle_Qle in T'. change (inject_Z 1) with 1%Q in T'.
        assert (1 * p <= inject_Z (k' - k) * p)%Q by (apply Qmult_le_compat_r; [assumption|lra]). lra. }
    rewrite Z in E. change (inject_Z 0) with 0%Q in E. lra. }
  assert ((val lo <= val v)%Q /\ (val v < val hi)%Q \/ cyclic X lo hi v w = (let* d := op_sub X v lo in let* m := op_sub X hi lo in let* d := op_mod X d m in op_add X lo d) w /\
     ~ ((val lo <= val v)%Q /\ (val v < val hi)%Q)) as [[A B]|[E NI]].
  { unfold cyclic. unfold bind at 1. rewrite (proj2 (HC lo v w Dl Dv)). destruct (Qle_bool (val lo) (val v)) eqn:E1.
    - unfold bind at 1. rewrite (proj1 (HC v hi w Dv Dh)). apply Qle_bool_iff in E1. destruct (Qle_bool (val hi) (val v)) eqn:E2; cbn [negb].
      + right. split; [reflexivity|]. apply Qle_bool_iff in E2. intros [_ B]. lra.
      + left. split; [assumption|]. apply qle_not. assumption.
    - right. split; [reflexivity|]. apply qle_not in E1. intros [A _]. lra. }
  - exists v. rewrite (IN v Dv A B). assert (congruent (val hi - val lo) (val v) (val v)) as CV.
    { exists 0. change (inject_Z 0) with 0%Q. ring. }
    repeat split; auto.
  - destruct (HS v lo w Dv Dl) as (d & E1 & Dd & V1). destruct (HS hi lo w Dh Dl) as (m & E2 & Dm & V2).
    assert (0 < val m)%Q as PM by (rewrite V2; lra).
    destruct (HM d m w Dd Dm) as (d' & E3 & Dd' & V3); [intro Z; rewrite Z in PM; discriminate PM|].
    destruct (HA lo d' w Dl Dd') as (r & E4 & Dr & V4).
    destruct (floor_range (val d) (val m) PM) as [F1 F2]. rewrite <- V3 in F1, F2. rewrite V2 in F2.
    assert (val lo <= val r)%Q as A by (rewrite V4; lra). assert (val r < val hi)%Q as B by (rewrite V4; lra).
    assert (congruent (val hi - val lo) (val r) (val v)) as K.
    { exists (- Qfloor (val d / val m)). rewrite inject_Z_opp. set (f := inject_Z (Qfloor (val d / val m))) in *.
      assert (val m * f == (val hi - val lo) * f)%Q as VM by (rewrite V2; reflexivity). rewrite V4, V3. rewrite VM. rewrite V1. ring. }
    exists r. rewrite E. unfold bind. rewrite E1, E2, E3, E4. rewrite (IN r Dr A B).
    split; [reflexivity|]. split; [assumption|]. split; [assumption|]. split; [assumption|]. split; [assumption|].
    split; [intros; exfalso; apply NI; split; assumption|]. split; [reflexivity|]. intros q A' B' K'. apply (UQ q (val r)); assumption.
Qed.

Lemma c64_wrong_bounds_proof : forall {obj ty W} (X : Ops obj ty W) D val lo hi v w,
  exact_numbers X D val -> D lo -> D hi -> D v ->
  ((val lo == val hi)%Q -> exists m, cyclic X lo hi v w = (Raise (mkexc ZeroDivisionError m), w)) /\
  ((val hi < val lo)%Q -> exists r, cyclic X lo hi v w = (Ok r, w) /\ (val hi < val r)%Q /\ (val r <= val lo)%Q).
Proof.
  intros obj ty W X D val lo hi v w (HC & HS & HA & HM & HZ) Dl Dh Dv.
  assert ((val hi <= val lo)%Q -> cyclic X lo hi v w = (let* d := op_sub X v lo in let* m := op_sub X hi lo in let* d := op_mod X d m in op_add X lo d) w) as E.
  { intro L. unfold cyclic. unfold bind at 1. rewrite (proj2 (HC lo v w Dl Dv)). destruct (Qle_bool (val lo) (val v)) eqn:E1; [|reflexivity].
    apply Qle_bool_iff in E1. unfold bind at 1. rewrite (proj1 (HC v hi w Dv Dh)).
    destruct (Qle_bool (val hi) (val v)) eqn:E2; [reflexivity|]. apply qle_not in E2. exfalso. lra. }
  destruct (HS v lo w Dv Dl) as (d & E1 & Dd & V1). destruct (HS hi lo w Dh Dl) as (m & E2 & Dm & V2). split.
  - intro L. rewrite E by lra. unfold bind. rewrite E1, E2. destruct (HZ d m w Dd Dm) as [msg Z]; [rewrite V2; lra|]. rewrite Z. exists msg. reflexivity.
  - intro L. rewrite E by lra. unfold bind. rewrite E1, E2.
    assert (val m < 0)%Q as NM by (rewrite V2; lra).
    destruct (HM d m w Dd Dm) as (d' & E3 & Dd' & V3); [intro Z; rewrite Z in NM; discriminate NM|].
    destruct (HA lo d' w Dl Dd') as (r & E4 & Dr & V4). rewrite E3, E4. exists r. split; [reflexivity|].
    destruct (floor_range_neg (val d) (val m) NM) as [F1 F2]. rewrite <- V3 in F1, F2. rewrite V2 in F1. rewrite V4. split; lra.
Qed.

Lemma c64_float_refuted_proof :
  exists lo hi v : spec_float,
    float_value lo = Some 0%Q /\ float_value v <> None /\ SFltb lo hi = true /\ SFltb v hi = true /\
    cyclic float_ops lo hi v tt = (Ok hi, tt).
Proof.
  exists (S754_zero false), (S754_finite false 6333186975989760 (-44)), (S754_finite true 6646139978924579 (-119)).
  repeat split; try (vm_compute; reflexivity). discriminate.
Qed.

Lemma c63_unordered_refuted_proof : forall {obj ty W} (X : Ops obj ty W) ge le v w,
  (forall a c, op_cmp X c a v w = (Ok false, w)) ->
  clamp X ge le v w = (Ok v, w).
Proof.
  intros obj ty W X ge le v w H. unfold clamp, py_max, py_min, bind.
  destruct ge as [a|]; [rewrite H|]; cbn; (destruct le as [b|]; [rewrite H|]; reflexivity).
Qed.

Lemma c63_nan_refuted_proof : forall lo hi : spec_float,
  clamp float_ops (Some lo) (Some hi) S754_nan tt = (Ok S754_nan, tt) /\
  SFleb lo S754_nan = false /\ SFleb S754_nan hi = false.
Proof.
 intros lo hi. split; [|split; [destruct lo; reflexivity|reflexivity]]. apply (c63_unordered_refuted_proof float_ops). intros a c. destruct a, c; reflexivity. Qed.

Section Within.
Context {obj ty W : Type} (X : Ops obj ty W) (D : obj -> Prop) (lt : obj -> obj -> bool) (H : totally_ordered X D lt).
Lemma within_check_eq : forall ge le g l v w, D v -> bound_in D ge -> bound_in D le ->
  within_check X ge le g l v w =
  (Ok (match ge with None => true | Some a => if g then negb (lt v a) else lt a v end &&
       match le with None => true | Some b => if l then negb (lt b v) else lt v b end), w).
Proof.
  intros ge le g l v w Dv Bg Bl. unfold within_check.
  assert ((match ge with None => ret true | Some x => op_cmp X (if g then CLe else CLt) x v end) w =
          (Ok (match ge with None => true | Some a => if g then negb (lt v a) else lt a v end), w)) as E1.
  { destruct ge as [a|]; [|reflexivity]. assert (D a) by (apply Bg; reflexivity). destruct g; [apply (cmp_le X D lt H)|apply (cmp_lt X D lt H)]; assumption. }
  unfold bind at 1. rewrite E1. destruct (match ge with None => true | Some a => if g then negb (lt v a) else lt a v end); cbn [negb andb]; [|reflexivity].
  assert ((match le with None => ret true | Some x => op_cmp X (if l then CGe else CGt) x v end) w =
          (Ok (match le with None => true | Some b => if l then negb (lt b v) else lt v b end), w)) as E2.
  { destruct le as [b|]; [|reflexivity]. assert (D b) by (apply Bl; reflexivity). destruct l; [apply (cmp_ge X D lt H)|apply (cmp_gt X D lt H)]; assumption. }
  unfold bind at 1. rewrite E2. destruct (match le with None => true | Some b => if l then negb (lt b v) else lt v b end); reflexivity.
Qed.
Lemma within_iff : forall ge le (g l : bool) v,
  match ge with None => true | Some a => if g then negb (lt v a) else lt a v end &&
  match le with None => true | Some b => if l then negb (lt b v) else lt v b end = true <->
  above lt g ge v /\ below lt l le v.
Proof.
  intros ge le g l v. rewrite andb_true_iff. unfold above, below. split.
  - intros [A B]. split.
    + intros a ->. destruct g; [apply negb_true_iff in A|]; assumption.
    + intros b ->. destruct l; [apply negb_true_iff in B|]; assumption.
  - intros [A B]. split.
    + destruct ge as [a|]; [|reflexivity]. specialize (A a eq_refl). destruct g; [apply negb_true_iff|]; assumption.
    + destruct le as [b|]; [|reflexivity]. specialize (B b eq_refl). destruct l; [apply negb_true_iff|]; assumption.
Qed.
End Within.

Lemma c65_within_proof : forall {obj ty W} (X : Ops obj ty W) D lt ge le g_eq l_eq a v w,
  totally_ordered X D lt -> D v -> bound_in D ge -> bound_in D le -> as_warn a = WarnFalse ->
  (above lt g_eq ge v /\ below lt l_eq le v -> within X ge le g_eq l_eq a v w = (Ok v, w)) /\
  (~ (above lt g_eq ge v /\ below lt l_eq le v) -> within X ge le g_eq l_eq a v w = (Raise (assert_exc a), w)).
Proof.
  intros obj ty W X D lt ge le g l a v w H Dv Bg Bl EW. pose proof (within_iff lt ge le g l v) as I.
  unfold within, assert_inner. unfold bind at 1 3. rewrite (within_check_eq X D lt H) by assumption. split.
  - intros A. rewrite (proj2 I A). reflexivity.
  - intros A. destruct (_ && _) eqn:E; [exfalso; apply A, I; reflexivity|]. unfold bind, assert_raise. rewrite EW. reflexivity.
Qed.

Lemma c65_refused_proof : forall {obj ty W} (X : Ops obj ty W) D lt ge le g_eq l_eq w,
  totally_ordered X D lt -> bound_in D ge -> bound_in D le ->
  let empty := exists a b, ge = Some a /\ le = Some b /\ (lt b a = true \/ lt a b = false /\ (g_eq = false \/ l_eq = false)) in
  (empty -> (exists m, within_new X ge le g_eq l_eq w = (Raise (mkexc ValueError m), w)) /\
            forall v, D v -> ~ (above lt g_eq ge v /\ below lt l_eq le v)) /\
  (~ empty -> within_new X ge le g_eq l_eq w = (Ok tt, w)).
Proof.
  intros obj ty W X D lt ge le g l w H Bg Bl empty. pose proof H as (_ & I & T & N).
  assert (forall a b, ge = Some a -> le = Some b ->
    within_new X ge le g l w = (if lt b a || ((negb g || negb l) && negb (lt a b) && negb (lt b a))
      then Raise (mkexc ValueError "the lower bound must not be greater then the upper bound") else Ok tt, w)) as E.
  { intros a b -> ->. assert (D a) as Da by (apply Bg; reflexivity). assert (D b) as Db by (apply Bl; reflexivity).
    unfold within_new. unfold bind at 1 2. rewrite (cmp_gt X D lt H) by assumption. destruct (lt b a) eqn:LBA; [reflexivity|].
    destruct (negb g || negb l); cbn [andb orb]; [|reflexivity].
    pose proof (proj1 H a b w Da Db) as (_ & _ & _ & _ & EQ). rewrite EQ, LBA.
    destruct (lt a b); reflexivity. }
  split.
  - intros (a & b & EA & EB & C). assert (D a) as Da by (apply Bg; assumption). assert (D b) as Db by (apply Bl; assumption). split.
    + rewrite (E a b EA EB). destruct (lt b a) eqn:L; cbn [orb]; [eexists; reflexivity|].
      destruct C as [C|[C1 C2]]; [congruence|]. rewrite C1. assert (negb g || negb l = true) as ->.
      { destruct C2 as [->| ->]; [reflexivity|apply orb_true_r]. } eexists. reflexivity.
    + intros v Dv [A B]. specialize (A a EA). specialize (B b EB).
      assert (lt v a = false) as A'. { destruct g; [assumption|]. apply (lt_asym X D lt H); assumption. }
      assert (lt b v = false) as B'. { destruct l; [assumption|]. apply (lt_asym X D lt H); assumption. }
      destruct C as [C|[C1 C2]].
      * destruct (N b v a Db Dv Da C); congruence.
      * destruct C2 as [->| ->].
        -- destruct (N a b v Da Db Dv A); congruence.
        -- destruct (N v a b Dv Da Db B); congruence.
  - intros NE. destruct ge as [a|], le as [b|]; try reflexivity. rewrite (E a b eq_refl eq_refl).
    destruct (lt b a) eqn:L; [exfalso; apply NE; exists a, b; auto|]. cbn [orb].
    destruct (lt a b) eqn:L2; [rewrite andb_false_r; reflexivity|].
    destruct g eqn:EG, l eqn:EL; try reflexivity; exfalso; apply NE; exists a, b; auto 8.
Qed.

Lemma c65_answers_proof : forall {obj ty W} (X : Ops obj ty W) ge le g_eq l_eq a v w r w',
  as_warn a = WarnFalse -> within X ge le g_eq l_eq a v w = (Ok r, w') ->
  r = v /\
  (forall x, ge = Some x -> exists w1 w2, op_cmp X (if g_eq then CLe else CLt) x v w1 = (Ok true, w2)) /\
  (forall x, le = Some x -> exists w1 w2, op_cmp X (if l_eq then CGe else CGt) x v w1 = (Ok true, w2)).
Proof.
  intros obj ty W X ge le g l a v w r w' EW E. unfold within, assert_inner, within_check, assert_raise in E. rewrite EW in E.
  unfold bind in E.
  destruct ge as [x|].
  - destruct (op_cmp X (if g then CLe else CLt) x v w) as [[[|]|e] w1] eqn:E1; cbn in E; try discriminate.
    destruct le as [y|].
    + destruct (op_cmp X (if l then CGe else CGt) y v w1) as [[[|]|e] w2] eqn:E2; cbn in E; try discriminate.
      injection E as <- <-. split; [reflexivity|]. split; intros ? [= <-]; eauto.
    + injection E as <- <-. split; [reflexivity|]. split; intros ? [= <-]; eauto.
  - destruct le as [y|]; cbn in E.
    + destruct (op_cmp X (if l then CGe else CGt) y v w) as [[[|]|e] w2] eqn:E2; cbn in E; try discriminate.
      injection E as <- <-. split; [reflexivity|]. split; intros ? [= <-]; eauto.
    + injection E as <- <-. split; [reflexivity|]. split; intros ? [=].
Qed.

Lemma c74_assert_proof : forall {obj ty W} (X : Ops obj ty W) a check v w,
  let error (warned : bool) := match as_err a with ErrExc e => e | ErrText s => mkexc (if warned then UserWarning else ValueError) s end in
  let warned target w1 := match op_warn X target (error true) w1 with (Ok _, w2) => (Ok v, w2) | (Raise e, w2) => (Raise e, w2) end in
  assert_inner X a check v w =
  match check v w with
  | (Raise e, w1) => (Raise e, w1)
  | (Ok true, w1) => (Ok v, w1)
  | (Ok false, w1) => match as_warn a with
                      | WarnFalse => (Raise (error false), w1)
                      | WarnTrue => warned None w1
                      | WarnLogger l => warned (Some l) w1
                      end
  end.
Proof.
  intros obj ty W X a check v w error warned. unfold assert_inner, bind. destruct (check v w) as [[[|]|e] w1]; try reflexivity.
  unfold assert_raise, assert_exc, warned, error. destruct (as_warn a); destruct (as_err a); reflexivity.
Qed.

Lemma c74_warn_never_raises_proof : forall {obj ty W} (X : Ops obj ty W) a check v w,
  as_warn a <> WarnFalse ->
  (forall target e w, exists w', op_warn X target e w = (Ok tt, w')) ->
  (exists b w1, check v w = (Ok b, w1)) ->
  exists w', assert_inner X a check v w = (Ok v, w').
Proof.
  intros obj ty W X a check v w NW HW (b & w1 & E). unfold assert_inner, bind. rewrite E. destruct b; [eexists; reflexivity|].
  unfold assert_raise. destruct (as_warn a) as [| |l]; [congruence| |].
  - destruct (HW None (assert_exc a) w1) as [w2 E2]. rewrite E2. exists w2. reflexivity.
  - destruct (HW (Some l) (assert_exc a) w1) as [w2 E2]. rewrite E2. exists w2. reflexivity.
Qed.

Lemma c74_builtin_proof : forall {obj ty W} (X : Ops obj ty W) ge le g_eq l_eq m func a,
  asserting_callback (within X ge le g_eq l_eq a) /\ asserting_callback (full_match X m a) /\
  asserting_callback (truth_validator X a) /\ asserting_callback (assert_call X func a).
Proof.
  intros obj ty W X ge le g l m func a.
  assert (forall check, asserting_callback (assert_inner X a check)) as A.
  { intros check x w y w' E. unfold assert_inner, bind in E. destruct (check x w) as [[[|]|e] w1]; try discriminate; [injection E; congruence|].
    destruct (assert_raise X a w1) as [[u|e] w2]; [injection E; congruence|discriminate]. }
  repeat split; apply A.
Qed.

Lemma digits_length : forall n v, List.length (digits n v) = n.
Proof. induction n; intros v; simpl; [|rewrite IHn]; reflexivity. Qed.
Lemma digits_bytes : forall n v, Forall is_byte (digits n v).
Proof. induction n; intros v; simpl; constructor; [apply Z.mod_pos_bound; lia|apply IHn]. Qed.
Lemma digits_value : forall n v, little_endian (digits n v) = v mod 256 ^ Z.of_nat n.
Proof.
  induction n; intros v; [simpl; symmetry; apply Z.mod_1_r|]. cbn [digits little_endian]. rewrite IHn.
  rewrite Nat2Z.inj_succ, Z.pow_succ_r by lia. rewrite Z.rem_mul_r by lia. lia.
Qed.
Lemma to_bytes_fits : forall n big signed v, 0 <= n -> fits_in n signed v ->
  exists l, to_bytes n big signed v = Ok l /\ Z.of_nat (List.length l) = n /\ Forall is_byte l /\ from_bytes big signed l = v.
Proof.
  intros n big signed v Hn F. unfold to_bytes. assert (Z.ltb n 0 = false) as -> by (apply Z.ltb_ge; lia).
  assert ((if signed then Z.leb (- 256 ^ n) (2 * v) && Z.ltb (2 * v) (256 ^ n) else Z.leb 0 v && Z.ltb v (256 ^ n)) = true) as ->.
  { destruct signed; apply andb_true_iff; unfold fits_in in F; split; try apply Z.leb_le; try apply Z.ltb_lt; lia. }
  eexists. split; [reflexivity|].
  assert (Z.of_nat (List.length (if big then rev (digits (Z.to_nat n) v) else digits (Z.to_nat n) v)) = n) as L.
  { destruct big; [rewrite rev_length|]; rewrite digits_length; lia. }
  split; [exact L|]. split.
  { destruct big; [apply Forall_rev|]; apply digits_bytes. }
  unfold from_bytes. rewrite L.
  assert (little_endian (if big then rev (if big then rev (digits (Z.to_nat n) v) else digits (Z.to_nat n) v)
    else if big then rev (digits (Z.to_nat n) v) else digits (Z.to_nat n) v) = v mod 256 ^ n) as ->.
  { destruct big; [rewrite rev_involutive|]; rewrite digits_value, Z2Nat.id by lia; reflexivity. }
  assert (0 < 256 ^ n) as PM by (apply Z.pow_pos_nonneg; lia).
  destruct signed; cbn [andb].
  - unfold fits_in in F. destruct (Z.leb (256 ^ n) (2 * (v mod 256 ^ n))) eqn:E.
    + apply Z.leb_le in E. destruct (Z.lt_ge_cases v 0) as [Neg|Pos].
      * rewrite <- (Z_mod_plus_full v 1 (256 ^ n)). rewrite Z.mod_small by lia. lia.
      * rewrite Z.mod_small in E by lia. lia.
    + apply Z.leb_gt in E. destruct (Z.lt_ge_cases v 0) as [Neg|Pos].
      * rewrite <- (Z_mod_plus_full v 1 (256 ^ n)) in E. rewrite Z.mod_small in E by lia. lia.
      * apply Z.mod_small. lia.
  - apply Z.mod_small. exact F.
Qed.
Lemma bit_length_bound : forall v, Z.abs v < 2 ^ bit_length v /\ 0 <= bit_length v.
Proof.
  intros v. unfold bit_length. destruct (Z.eqb_spec v 0) as [->|N]; [simpl; lia|].
  pose proof (Z.log2_spec (Z.abs v) ltac:(lia)). pose proof (Z.log2_nonneg (Z.abs v)). unfold Z.succ in *. lia.
Qed.
Lemma pow256 : forall n, 0 <= n -> 256 ^ n = 2 ^ (8 * n).
Proof. intros n Hn. rewrite Z.pow_mul_r by lia. reflexivity. Qed.

Lemma c67_round_trip_proof : forall big signed v, signed = true \/ 0 <= v ->
  exists l, whole_bytes None big signed v = Ok l /\ Forall is_byte l /\ from_bytes big signed l = v.
Proof.
  intros big signed v S. pose proof (bit_length_bound v) as [B B0].
  set (n := ((bit_length v + 7 + (if signed then 1 else 0)) / 8)%Z).
  assert (0 <= n) as Hn by (apply Z.div_pos; destruct signed; lia).
  assert (bit_length v + (if signed then 1 else 0) <= 8 * n) as HB.
  { unfold n. pose proof (Z.div_mod (bit_length v + 7 + (if signed then 1 else 0)) 8 ltac:(lia)).
    pose proof (Z.mod_pos_bound (bit_length v + 7 + (if signed then 1 else 0)) 8 ltac:(lia)). lia. }
  assert (fits_in n signed v) as F.
  { unfold fits_in. rewrite pow256 by assumption.
    pose proof (Z.pow_le_mono_r 2 (bit_length v + (if signed then 1 else 0)) (8 * n) ltac:(lia) HB) as M.
    destruct signed; [|destruct S; [discriminate|]; rewrite Z.add_0_r in M; lia].
    replace (bit_length v + 1) with (Z.succ (bit_length v)) in M by lia. rewrite Z.pow_succ_r in M by lia. lia. }
  destruct (to_bytes_fits n big signed v Hn F) as (l & E & _ & FB & V). exists l. split; [exact E|]. split; assumption.
Qed.

Lemma c67_unsigned_proof : forall big v,
  (forall l, whole_bytes None big false v = Ok l -> forall n, 0 <= n -> fits_in n false v -> Z.of_nat (List.length l) <= n) /\
  (v < 0 -> exists m, whole_bytes None big false v = Raise (mkexc OverflowError m)).
Proof.
  intros big v. pose proof (bit_length_bound v) as [B B0]. split.
  - intros l E n Hn F. unfold fits_in in F.
    unfold whole_bytes in E. rewrite Z.add_0_r in E. set (k := ((bit_length v + 7) / 8)%Z) in E.
    assert (0 <= k) as Hk by (apply Z.div_pos; lia).
    assert (Z.of_nat (List.length l) = k) as ->.
    { unfold to_bytes in E. destruct (Z.ltb k 0); [discriminate|]. destruct (Z.leb 0 v && Z.ltb v (256 ^ k)); [|discriminate].
      injection E as <-. destruct big; [rewrite rev_length|]; rewrite digits_length; lia. }
    unfold k. apply Z.lt_succ_r. apply Z.div_lt_upper_bound; [lia|].
    assert (bit_length v <= 8 * n); [|lia].
    unfold bit_length. destruct (Z.eqb_spec v 0) as [->|N]; [lia|]. rewrite pow256 in F by assumption.
    rewrite Z.abs_eq by lia. destruct F as [F0 F]. apply Z.log2_lt_pow2 in F; lia.
  - intros Neg. unfold whole_bytes, to_bytes. rewrite Z.add_0_r.
    assert (0 <= (bit_length v + 7) / 8) as Hk by (apply Z.div_pos; lia).
    assert (Z.ltb ((bit_length v + 7) / 8) 0 = false) as -> by (apply Z.ltb_ge; lia).
    assert (Z.leb 0 v = false) as -> by (apply Z.leb_gt; lia). eexists. reflexivity.
Qed.

Lemma c67_explicit_length_proof : forall n big signed v, 0 <= n ->
  (fits_in n signed v -> exists l, whole_bytes (Some n) big signed v = Ok l /\ Z.of_nat (List.length l) = n /\
                               Forall is_byte l /\ from_bytes big signed l = v) /\
  (~ fits_in n signed v -> exists m, whole_bytes (Some n) big signed v = Raise (mkexc OverflowError m)).
Proof.
  intros n big signed v Hn. split; [apply to_bytes_fits; assumption|]. intros NF. unfold whole_bytes, to_bytes.
  assert (Z.ltb n 0 = false) as -> by (apply Z.ltb_ge; lia).
  destruct (if signed then _ else _) eqn:E; [|eexists; reflexivity]. exfalso. apply NF. unfold fits_in.
  destruct signed; apply andb_true_iff in E as [E1 E2]; apply Z.leb_le in E1; apply Z.ltb_lt in E2; lia.
Qed.

Lemma c67_coercer_proof : forall {obj ty W} (X : Ops obj ty W) int_value bytes_obj big signed o v w,
  (forall z, int_value v = Some z -> signed = true \/ 0 <= z ->
     exists l, bytes_coercer X int_value bytes_obj None big signed o v w = op_make X o [bytes_obj l] [] w /\
               Forall is_byte l /\ from_bytes big signed l = z) /\
  (int_value v = None -> exists m, bytes_coercer X int_value bytes_obj None big signed o v w = (Raise (mkexc TypeError m), w)).
Proof.
  intros. unfold bytes_coercer. split.
  - intros z -> S. destruct (c67_round_trip_proof big signed z S) as (l & E & B & V). exists l. split; [|split; assumption].
    unfold bind, lift. rewrite E. reflexivity.
  - intros ->. eexists. reflexivity.
Qed.

Lemma integral_fmod : forall f q z, float_value f = Some q -> (q == inject_Z z)%Q -> exists s, fmod f f_one = S754_zero s.
Proof.
  intros f q z V E. destruct f as [s|s| |s m e]; cbn in V; try discriminate; [eexists; reflexivity|].
  assert (Z.min e (-52) <= e /\ Z.min e (-52) <= -52) as [M1 M2] by (split; lia).
  assert (exists k, Zpos m * 2 ^ (e - Z.min e (-52)) = k * 2 ^ (- Z.min e (-52))) as [k K].
  { destruct e as [|p|p].
    - exists (Zpos m). reflexivity.
    - exists (Zpos m * 2 ^ Zpos p). rewrite <- Z.mul_assoc, <- Z.pow_add_r by lia. f_equal.
    - injection V as <-.
      assert ((if s then Z.neg m else Z.pos m) = z * 2 ^ Zpos p) as EZ.
      { assert (0 < 2 ^ Zpos p) as PP by (apply Z.pow_pos_nonneg; lia).
        assert (inject_Z (if s then Z.neg m else Z.pos m) == inject_Z (z * 2 ^ Zpos p))%Q as EQ.
        { rewrite inject_Z_mult, <- E. symmetry. rewrite Qmult_comm. apply Qmult_div_r. intros H0. unfold Qeq in H0. cbn -[Z.pow] in H0. lia. }
        unfold Qeq in EQ. cbn -[Z.pow Z.mul] in EQ. destruct s; lia. }
      exists (Z.abs z). assert (Zpos m = Z.abs z * 2 ^ Zpos p) as ->.
      { assert (Zpos m = Z.abs (if s then Z.neg m else Z.pos m)) as -> by (destruct s; reflexivity).
        rewrite EZ, Z.abs_mul. f_equal. apply Z.abs_eq. apply Z.pow_nonneg. lia. }
      rewrite <- Z.mul_assoc, <- Z.pow_add_r by lia. f_equal. f_equal. lia. }
  unfold fmod, f_one. exists s. rewrite K.
  replace (Zpos 4503599627370496 * 2 ^ (-52 - Z.min e (-52))) with (2 ^ (- Z.min e (-52))).
  2:{ change (Zpos 4503599627370496) with (2 ^ 52). rewrite <- Z.pow_add_r by lia. f_equal. lia. }
  rewrite Z.mod_mul by (apply Z.pow_nonzero; lia). destruct s; reflexivity.
Qed.

Lemma c66_rational_partial_proof : forall {obj ty W} (X : Ops obj ty W) number_of int_obj float_obj args kw o v n d w,
  number_of v = NRational n d -> Z.gcd n (Zpos d) = 1 ->
  (forall z, (n # d == inject_Z z)%Q -> whole X number_of int_obj float_obj args kw o v w = op_make X o (int_obj z :: args) kw w) /\
  ((forall z, ~ (n # d == inject_Z z)%Q) -> exists m, whole X number_of int_obj float_obj args kw o v w = (Raise (mkexc TypeError m), w)).
Proof.
  intros obj ty W X number_of int_obj float_obj args kw o v n d w E G. unfold whole. rewrite E. split.
  - intros z EQ. unfold Qeq in EQ. cbn in EQ. rewrite Z.mul_1_r in EQ.
    assert (d = 1%positive) as ->.
    { assert (Z.gcd n (Zpos d) = Zpos d) as GG.
      { rewrite EQ. rewrite Z.gcd_comm, Z.mul_comm. rewrite Z.gcd_mul_diag_l; lia. } rewrite G in GG. injection GG as ->. reflexivity. }
    assert (n = z) as -> by lia. reflexivity.
  - intros NI. destruct (Pos.eqb_spec d 1) as [->|N]; [exfalso; apply (NI n); unfold Qeq; cbn; lia|]. eexists. reflexivity.
Qed.

Lemma c66_float_partial_proof : forall {obj ty W} (X : Ops obj ty W) number_of int_obj float_obj args kw o v w,
  (forall f q z, number_of v = NFloat f -> float_value f = Some q -> (q == inject_Z z)%Q ->
     whole X number_of int_obj float_obj args kw o v w = op_make X o (v :: args) kw w) /\
  (forall f q z s, number_of v = NComplex f (S754_zero s) -> float_value f = Some q -> (q == inject_Z z)%Q ->
     whole X number_of int_obj float_obj args kw o v w = op_make X o (float_obj f :: args) kw w) /\
  ((exists f, number_of v = NFloat f /\ float_value f = None) \/
   (exists f i, number_of v = NComplex f i /\ (float_value f = None \/ ~ exists s, i = S754_zero s)) \/ number_of v = NOther ->
     exists m, whole X number_of int_obj float_obj args kw o v w = (Raise (mkexc TypeError m), w)).
Proof.
  intros obj ty W X number_of int_obj float_obj args kw o v w.
  assert (forall u f q z, float_value f = Some q -> (q == inject_Z z)%Q -> whole_float X args kw o u f w = op_make X o (u :: args) kw w) as A.
  { intros u f q z V EQ. unfold whole_float, float_mod. destruct (integral_fmod f q z V EQ) as [s ->]. reflexivity. }
  assert (forall u f, float_value f = None -> exists m, whole_float X args kw o u f w = (Raise (mkexc TypeError m), w)) as B.
  { intros u f V. destruct f as [s|s| |s m e]; cbn in V; try discriminate; eexists; reflexivity. }
  unfold whole. split; [|split].
  - intros f q z -> V EQ. apply (A v f q z V EQ).
  - intros f q z s -> V EQ. apply (A _ f q z V EQ).
  - intros [(f & -> & V)|[(f & i & -> & V)| ->]]; [apply B; exact V| |eexists; reflexivity].
    destruct (is_zero i) eqn:EI; [|eexists; reflexivity].
    destruct V as [V|V]; [apply B; exact V|]. exfalso. apply V. destruct i as [s|s| |s m e]; try discriminate. exists s. reflexivity.
Qed.

Lemma c66_float_near_partial_proof : forall {obj ty W} (X : Ops obj ty W) number_of int_obj float_obj args kw o v w f q,
  valid_binary 53 1024 f = true -> float_value f = Some q ->
  (number_of v = NFloat f ->
     ((inject_Z (Qceiling q) - q <= 999999 # (10 ^ 15))%Q ->
        whole X number_of int_obj float_obj args kw o v w = op_make X o (v :: args) kw w) /\
     ((1000001 # (10 ^ 15) < inject_Z (Qceiling q) - q)%Q ->
        exists m, whole X number_of int_obj float_obj args kw o v w = (Raise (mkexc TypeError m), w))) /\
  (forall s, number_of v = NComplex f (S754_zero s) ->
     ((inject_Z (Qceiling q) - q <= 999999 # (10 ^ 15))%Q ->
        whole X number_of int_obj float_obj args kw o v w = op_make X o (float_obj f :: args) kw w) /\
     ((1000001 # (10 ^ 15) < inject_Z (Qceiling q) - q)%Q ->
        exists m, whole X number_of int_obj float_obj args kw o v w = (Raise (mkexc TypeError m), w))).
Proof.
  intros obj ty W X number_of int_obj float_obj args kw o v w f q HV V.
  assert (A : forall u, ((inject_Z (Qceiling q) - q <= 999999 # (10 ^ 15))%Q -> whole_float X args kw o u f w = op_make X o (u :: args) kw w) /\
    ((1000001 # (10 ^ 15) < inject_Z (Qceiling q) - q)%Q -> exists m, whole_float X args kw o u f w = (Raise (mkexc TypeError m), w))).
  { intros u. destruct (Qeq_dec q (inject_Z (Qceiling q))) as [EQ|NE].
    - split; intros H.
      + unfold whole_float, float_mod. destruct (integral_fmod f q _ V EQ) as [s ->]. reflexivity.
      + exfalso. apply Qlt_not_le in H. apply H. rewrite <- EQ. unfold Qminus. rewrite Qplus_opp_r. discriminate.
    - destruct (Float_proofs.near_value f q HV V) as [HT HF].
      { intros [z EZ]. apply NE. rewrite EZ at 2. rewrite Qceiling_Z. exact EZ. }
      unfold whole_float. split; intros H; [rewrite (HT H); reflexivity|rewrite (HF H); eexists; reflexivity]. }
  unfold whole. split.
  - intros ->. apply A.
  - intros s ->. apply A.
Qed.

Lemma c66_float_refuted_proof :
  (exists f q, float_value f = Some q /\ (2 < q)%Q /\ (q < 3)%Q /\
     whole number_ops (fun n => n) (fun z => NRational z 1) NFloat [] [] (OTy tt) (NFloat f) tt = (Ok (NRational 2 1), tt)) /\
  (exists f q, float_value f = Some q /\ (-1 < q)%Q /\ (q < 0)%Q /\
     whole number_ops (fun n => n) (fun z => NRational z 1) NFloat [] [] (OTy tt) (NFloat f) tt = (Ok (NRational 0 1), tt)).
Proof.
  split.
  - exists (S754_finite false 6755399440830564 (-51)). eexists. split; [reflexivity|]. repeat split; vm_compute; reflexivity.
  - exists (S754_finite true 6646139978924579 (-119)). eexists. split; [reflexivity|]. repeat split; vm_compute; reflexivity.
Qed.

Lemma c69_map_proof : forall {obj ty W} (X : Ops obj ty W) vm fm value factory v w,
  looks_up vm value -> looks_up fm factory ->
  map_coercion X vm fm v w =
  match value v, factory v with
  | Some x, _ => (Ok x, w)
  | None, Some f => op_call X f [] [] w
  | None, None => (Raise (mkexc TypeError ""), w)
  end.
Proof.
  intros obj ty W X vm fm value factory v w HV HF.
  assert (forall m f, looks_up m f -> mapping_in m v w = (Ok (match f v with Some _ => true | None => false end), w)) as IN.
  { intros [m|] f H; cbn in *; [|rewrite H; reflexivity]. destruct H as [HT HL]. destruct (HL v w) as [HI _].
    destruct (mp_true m); [exact HI|]. rewrite (HT eq_refl). reflexivity. }
  assert (forall m f x, looks_up m f -> f v = Some x -> mapping_get m v w = (Ok x, w)) as GET.
  { intros [m|] f x H E; cbn in *; [|rewrite H in E; discriminate]. destruct H as [HT HL]. destruct (HL v w) as [_ HG]. exact (HG x E). }
  unfold map_coercion. unfold bind at 1. rewrite (IN vm value HV). destruct (value v) as [x|] eqn:EV; [exact (GET vm value x HV EV)|].
  unfold bind at 1. rewrite (IN fm factory HF). destruct (factory v) as [f|] eqn:EF; [|reflexivity].
  unfold bind. rewrite (GET fm factory f HF EF). reflexivity.
Qed.

Lemma c69_unhashable_proof : forall {obj ty W} (X : Ops obj ty W) m fm v w e w',
  mp_true m = true -> mp_in m v w = (Raise e, w') -> map_coercion X (Some m) fm v w = (Raise e, w').
Proof.
 intros obj ty W X m fm v w e w' T E. unfold map_coercion, bind, mapping_in. rewrite T, E. reflexivity. Qed.

(** 1 -> 'one', 2 -> the number of arguments of a call without any *)
Definition demo_value (v : dobj) : option dobj := match v with DInt 1 => Some (DStr "one") | _ => None end.
Definition demo_factory (v : dobj) : option dobj := match v with DInt 1 | DInt 2 => Some (DFun 0) | _ => None end.
Definition demo_map (f : dobj -> option dobj) : @mapping dobj demo_state :=
  Mapping true (fun v => ret (match f v with Some _ => true | None => false end))
               (fun v => match f v with Some x => ret x | None => raise (mkexc KeyError "") end).

Lemma instance_any_iff : forall {obj ty W} (P : Py obj ty W) v ts, instance_any P v ts = true <-> instance_of_one P ts v.
Proof. intros. unfold instance_any, instance_of_one. rewrite existsb_exists. split; intros (t & A & B); exists t; auto. Qed.
Lemma zip_bad_iff : forall {obj ty W} (P : Py obj ty W) vs tcs, List.length vs = List.length tcs ->
  (zip_bad P vs tcs = false <-> Forall2 (instance_of_one P) tcs vs).
Proof.
  intros obj ty W P. induction vs as [|v vs IH]; intros [|tc tcs] L; try discriminate.
  - split; [constructor|reflexivity].
  - cbn [zip_bad]. injection L as L. rewrite orb_false_iff, negb_false_iff, IH, instance_any_iff by assumption. split.
    + intros [A B]. constructor; assumption.
    + intros A. inversion A; subst. split; assumption.
Qed.

Lemma c71_loose_partial_proof : forall {obj ty W} (P : Py obj ty W) (X : Ops obj ty W) args kw o v w,
  loose P X None args kw o v w = op_make X o (v :: args) kw w /\
  forall ts, ts <> [] ->
    (instance_of_one P ts v -> loose P X (Some ts) args kw o v w = op_make X o (v :: args) kw w) /\
    (~ instance_of_one P ts v -> exists m, loose P X (Some ts) args kw o v w = (Raise (mkexc TypeError m), w)).
Proof.
  intros obj ty W P X args kw o v w. split; [reflexivity|]. intros ts NE. unfold loose. destruct ts as [|t r]; [congruence|]. split.
  - intros I. apply instance_any_iff in I. rewrite I. reflexivity.
  - intros I. destruct (instance_any P v (t :: r)) eqn:E; [apply instance_any_iff in E; contradiction|]. eexists. reflexivity.
Qed.

Lemma c71_loose_refuted_proof : forall {obj ty W} (P : Py obj ty W) (X : Ops obj ty W) args kw o v w,
  ~ instance_of_one P [] v /\ loose P X (Some []) args kw o v w = op_make X o (v :: args) kw w.
Proof.
 intros obj ty W P X args kw o v w. split; [|reflexivity]. intros (t & [] & _). Qed.

Lemma c71_unpack_proof : forall {obj ty W} (P : Py obj ty W) (X : Ops obj ty W) args kw o v w vs w1,
  op_tuple X v w = (Ok vs, w1) ->
  loose_unpack P X UnpackFree args kw o v w = op_make X o (vs ++ args) kw w1 /\
  (forall tcs,
     (Forall2 (instance_of_one P) tcs vs -> loose_unpack P X (UnpackEach tcs) args kw o v w = op_make X o (vs ++ args) kw w1) /\
     (~ Forall2 (instance_of_one P) tcs vs -> exists m, loose_unpack P X (UnpackEach tcs) args kw o v w = (Raise (mkexc TypeError m), w1))) /\
  (forall ts,
     (Forall (instance_of_one P ts) vs -> loose_unpack P X (UnpackAll ts) args kw o v w = op_make X o (vs ++ args) kw w1) /\
     (~ Forall (instance_of_one P ts) vs -> exists m, loose_unpack P X (UnpackAll ts) args kw o v w = (Raise (mkexc TypeError m), w1))).
Proof.
  intros obj ty W P X args kw o v w vs w1 E. unfold loose_unpack, bind. rewrite E. split; [reflexivity|]. split.
  - intros tcs.
    assert (negb (Nat.eqb (List.length vs) (List.length tcs)) || zip_bad P vs tcs = false <-> Forall2 (instance_of_one P) tcs vs) as I.
    { rewrite orb_false_iff, negb_false_iff, Nat.eqb_eq. split.
      - intros [L Z]. apply (proj1 (zip_bad_iff P vs tcs L) Z).
      - intros F. assert (List.length vs = List.length tcs) as L by (clear - F; induction F; cbn; congruence).
        split; [exact L|]. apply (proj2 (zip_bad_iff P vs tcs L) F). }
    split.
    + intros F. rewrite (proj2 I F). reflexivity.
    + intros F. destruct (_ || _) eqn:B; [eexists; reflexivity|]. exfalso. apply F, I. reflexivity.
  - intros ts.
    assert (existsb (fun i => negb (instance_any P i ts)) vs = false <-> Forall (instance_of_one P ts) vs) as I.
    { rewrite Forall_forall. split.
      - intros B x In. apply instance_any_iff. destruct (instance_any P x ts) eqn:N; [reflexivity|].
        assert (existsb (fun i => negb (instance_any P i ts)) vs = true); [|congruence]. apply existsb_exists. exists x. rewrite N. auto.
      - intros F. destruct (existsb _ vs) eqn:B; [|reflexivity]. apply existsb_exists in B as (x & In & N).
        specialize (F x In). apply instance_any_iff in F. rewrite F in N. discriminate. }
    split.
    + intros F. rewrite (proj2 I F). reflexivity.
    + intros F. destruct (existsb _ vs) eqn:B; [eexists; reflexivity|]. exfalso. apply F, I. reflexivity.
Qed.

Lemma c71_unpack_map_proof : forall {obj ty W} (P : Py obj ty W) (X : Ops obj ty W) args kw o v w d,
  op_items X v w = (Ok d, w) -> op_unpack X v w = (Ok d, w) -> (forall k, In k (keys d) -> dmem k kw = false) ->
  loose_unpack_map P X None args kw o v w = op_make X o args (d ++ kw) w /\
  (forall tcs,
     let good := forall k x, In (k, x) d -> exists ts, dget k tcs = Some ts /\ instance_of_one P ts x in
     (good -> loose_unpack_map P X (Some tcs) args kw o v w = op_make X o args (d ++ kw) w) /\
     (~ good -> exists m, loose_unpack_map P X (Some tcs) args kw o v w = (Raise (mkexc TypeError m), w))).
Proof.
  intros obj ty W P X args kw o v w d EI EU ND. unfold loose_unpack_map, bind, ret.
  assert (existsb (fun k => dmem k kw) (keys d) = false) as NX.
  { destruct (existsb _ _) eqn:B; [|reflexivity]. apply existsb_exists in B as (k & In & M). rewrite (ND k In) in M. discriminate. }
  split; [cbn [negb]; rewrite EU, NX; reflexivity|]. intros tcs. rewrite EI.
  set (good := forall k x, In (k, x) d -> exists ts, dget k tcs = Some ts /\ instance_of_one P ts x).
  assert (forallb (fun ka => match dget (fst ka) tcs with None => false | Some tc => instance_any P (snd ka) tc end) d = true <-> good) as I.
  { rewrite forallb_forall. unfold good. split.
    - intros F k x In. specialize (F (k, x) In). cbn in F. destruct (dget k tcs) as [ts|]; [|discriminate]. exists ts. split; [reflexivity|]. apply instance_any_iff. exact F.
    - intros G [k x] In. cbn. destruct (G k x In) as (ts & E & B). rewrite E. apply instance_any_iff. exact B. }
  split.
  - intros G. rewrite (proj2 I G). cbn [negb]. rewrite EU, NX. reflexivity.
  - intros G. destruct (forallb _ d) eqn:B; [exfalso; apply G, I; reflexivity|]. eexists. reflexivity.
Qed.

Lemma c71_unpack_map_twice_proof : forall {obj ty W} (P : Py obj ty W) (X : Ops obj ty W) tcs args kw o v w d k,
  op_items X v w = (Ok d, w) -> op_unpack X v w = (Ok d, w) -> In k (keys d) -> dmem k kw = true ->
  exists m, loose_unpack_map P X tcs args kw o v w = (Raise (mkexc TypeError m), w).
Proof.
  intros obj ty W P X tcs args kw o v w d k HI HU HK HM.
  assert (E : existsb (fun k => dmem k kw) (keys d) = true) by (apply existsb_exists; eauto).
  unfold loose_unpack_map. destruct tcs as [tcs|]; unfold bind; [rewrite HI|]; cbn [ret].
  - unfold ret. destruct (forallb _ d); cbn [negb]; [rewrite HU, E|]; eexists; reflexivity.
  - unfold ret. cbn [negb]. rewrite HU, E. eexists. reflexivity.
Qed.

Lemma c79_eval_proof : forall {obj ty W} (X : Ops obj ty W) ns v w,
  (op_is_str X v = false -> exists m, eval_callback X ns v w = (Raise (mkexc TypeError m), w)) /\
  (op_is_str X v = true ->
     (forall y w', op_eval X ns v w = (Ok y, w') -> eval_callback X ns v w = (Ok y, w')) /\
     (forall e w', op_eval X ns v w = (Raise e, w') ->
        (is_Exception e = true -> exists m, eval_callback X ns v w = (Raise (Exc TypeError m (Some e)), w')) /\
        (is_Exception e = false -> eval_callback X ns v w = (Raise e, w')))).
Proof.
  intros obj ty W X ns v w. unfold eval_callback. split; [intros ->; eexists; reflexivity|]. intros ->. cbn [negb]. unfold catch. split.
  - intros y w' ->. reflexivity.
  - intros e w' ->. split; intros ->; [eexists|]; reflexivity.
Qed.

Section Literal.
Context {obj ty W : Type} (X : Ops obj ty W) (size : obj -> nat).
Hypothesis shrinks : forall s w y w', op_is_str X s = true -> op_literal_eval X s w = (Ok y, w') -> op_is_str X y = true -> (size y < size s)%nat.
Lemma literal_fuel : forall n m v w, (size v < n)%nat -> (size v < m)%nat -> literal_loop X n v w = literal_loop X m v w.
Proof.
  induction n as [|n IH]; intros m v w Hn Hm; [lia|]. destruct m as [|m]; [lia|].
  cbn [literal_loop]. destruct (op_is_str X v) eqn:S; [|reflexivity]. cbn [negb].
  destruct (op_literal_eval X v w) as [[y|e] w1] eqn:E; [|reflexivity].
  destruct (op_is_str X y) eqn:SY.
  - pose proof (shrinks v w y w1 S E SY). apply IH; lia.
  - destruct n, m; cbn [literal_loop]; rewrite SY; reflexivity.
Qed.
End Literal.

Lemma c80_terminates_proof : forall {obj ty W} (X : Ops obj ty W) (size : obj -> nat),
  (forall s w y w', op_is_str X s = true -> op_literal_eval X s w = (Ok y, w') -> op_is_str X y = true -> (size y < size s)%nat) ->
  forall n m v w, (size v < n)%nat -> (size v < m)%nat -> literal_loop X n v w = literal_loop X m v w.
Proof.
 intros obj ty W X size H. exact (literal_fuel X size H). Qed.

Lemma c80_result_proof : forall {obj ty W} (X : Ops obj ty W) n v w,
  (op_is_str X v = false -> literal_loop X n v w = (Ok v, w)) /\
  (forall y w', literal_loop X n v w = (Ok y, w') -> op_is_str X y = false /\ evaluated X v w y w').
Proof.
  intros obj ty W X n v w. split; [intros S; destruct n; cbn [literal_loop]; rewrite S; reflexivity|].
  revert v w. induction n as [|n IH]; intros v w y w'; cbn [literal_loop]; destruct (op_is_str X v) eqn:S; cbn [negb]; intros E; try discriminate.
  - injection E as <- <-. split; [assumption|constructor].
  - destruct (op_literal_eval X v w) as [[z|e] w1] eqn:EL; [|discriminate].
    destruct (IH _ _ _ _ E) as [A B]. split; [exact A|]. apply (evaluated_step X v w z w1 y w'); assumption.
  - injection E as <- <-. split; [assumption|constructor].
Qed.

Lemma ty_mem_iff : forall {obj ty W} (P : Py obj ty W) t l, ty_mem P t l = true <-> In t l.
Proof.
  intros obj ty W P t l. unfold ty_mem. rewrite existsb_exists. split.
  - intros (u & I & E). destruct (ty_eqP P t u); [subst; exact I|discriminate].
  - intros I. exists t. split; [exact I|]. destruct (ty_eqP P t t); [reflexivity|congruence].
Qed.

Lemma c80_types_proof : forall {obj ty W} (P : Py obj ty W) (X : Ops obj ty W) literals fuel o,
  match literal_eval_token P X literals fuel with
  | CGlobal g => (forall t, o = OTy t -> In t literals -> exists f, g o = Ok f) /\
                 ((forall t, o = OTy t -> ~ In t literals) -> exists m, g o = Raise (mkexc TypeError m))
  | _ => False
  end.
Proof.
  intros obj ty W P X literals fuel o. cbn. split.
  - intros t -> In. assert (ty_mem P t literals = true) as ->; [|eexists; reflexivity].
    apply ty_mem_iff. exact In.
  - intros N. destruct o; try (eexists; reflexivity). destruct (ty_mem P t literals) eqn:E; [|eexists; reflexivity].
    exfalso. apply (N t eq_refl). apply ty_mem_iff in E. exact E.
Qed.

Lemma c81_loose_proof : forall {obj ty W} (P : Py obj ty W) (f : @origin ty -> @callback obj W) o,
  match loose_token P f with
  | CGlobal g => (forall t, o = OTy t -> isabstract P t = false -> g o = Ok (f o)) /\
                 ((forall t, o = OTy t -> isabstract P t = true) -> exists m, g o = Raise (mkexc TypeError m))
  | _ => False
  end.
Proof.
  intros obj ty W P f o. cbn. split.
  - intros t -> ->. reflexivity.
  - intros N. destruct o; try (eexists; reflexivity). rewrite (N t eq_refl). eexists. reflexivity.
Qed.

From Verif Require Import Filler_main.

Lemma checked_class : forall {obj ty W} (P : Py obj ty W) dflt t toks y,
  t <> t_none P -> t <> t_ellipsis P ->
  conforms P dflt (sub_ops []) (own_ops []) [] (HAnn (HTy t) toks) y ->
  eff_style dflt toks <> SHollow -> type_of P y = t \/ isinstance P y t = true.
Proof.
  intros obj ty W P dflt t toks y N1 N2 C NH. cbn in C. rewrite app_nil_r in C. destruct C as [C _].
  unfold class_conforms in C. destruct (ty_eqP P t (t_none P)); [congruence|]. destruct (ty_eqP P t (t_ellipsis P)); [congruence|].
  assert (class_ok P (eff_style dflt toks) t y) as K by (destruct (ty_eqb P t (t_bool P)); exact C).
  unfold class_ok in K. destruct (eff_style dflt toks); try congruence; try contradiction; auto.
Qed.
Lemma eff_style_without : forall {obj ty W} dflt (toks : list (@token obj ty W)), eff_style dflt (without_validators toks) = eff_style dflt toks.
Proof.
  intros. unfold eff_style, last_style. f_equal. generalize SDefault as s. induction toks as [|k toks IH]; intros s; [reflexivity|].
  destruct k; cbn; apply IH.
Qed.
Lemma without_asserting : forall {obj ty W} (toks : list (@token obj ty W)), Forall asserting (without_validators toks).
Proof.
  intros. apply Forall_forall. intros k I. unfold without_validators in I. apply filter_In in I as [_ I]. destruct k; try exact Logic.I. discriminate.
Qed.
Lemma in_order_app : forall {obj W} (a b : list (obj -> M W obj)) x w, in_order (a ++ b) x w = (let* y := in_order a x in in_order b y) w.
Proof.
  induction a as [|f a IH]; intros b x w; [reflexivity|]. cbn [in_order app]. unfold bind in *. destruct (f x w) as [[y|e] w1]; [|reflexivity]. apply IH.
Qed.
Lemma in_order_asserting : forall {obj W} (a : list (obj -> M W obj)), Forall asserting_callback a ->
  forall x w y w', in_order a x w = (Ok y, w') -> y = x.
Proof.
  induction 1 as [|f a F _ IH]; intros x w y w' E; cbn [in_order] in E; [injection E; congruence|].
  unfold bind in E. destruct (f x w) as [[z|e] w1] eqn:EF; [|discriminate]. rewrite (IH _ _ _ _ E). apply (F _ _ _ _ EF).
Qed.
Lemma declared_app : forall {obj ty W} (o : @origin ty) (a : list (@token obj ty W)) k vs,
  declared_validators o (a ++ [TValid (validation k)]) vs -> exists us, vs = us ++ [k] /\ declared_validators o a us.
Proof.
  intros obj ty W o a k vs H. unfold declared_validators in *.
  assert (forall u, validation_tokens (a ++ u) = validation_tokens a ++ validation_tokens u) as S.
  { intros u. unfold validation_tokens. apply flat_map_app. }
  rewrite S in H. apply Forall2_app_inv_l in H as (us & l & H1 & H2 & ->). exists us. split; [|assumption]. f_equal.
  inversion H2 as [|? f ? r E R]; subst. inversion R; subst. cbn in E. injection E as ->. reflexivity.
Qed.
Lemma last_validator : forall {obj ty W} (P : Py obj ty W) dflt t toks k f,
  honest_containers P -> t <> t_none P -> t <> t_ellipsis P -> eff_style dflt toks <> SHollow -> Forall asserting toks ->
  make_filler P dflt (HAnn (HTy t) (toks ++ [TValid (validation k)])) [] = Ok f ->
  forall x w y w', call P f x w = (Ok y, w') -> exists z w1, (type_of P z = t \/ isinstance P z t = true) /\ k z w1 = (Ok y, w').
Proof.
  intros obj ty W P dflt t toks k f HC N1 N2 NH AS MF x w y w' E.
  destruct (c07_validators_in_order_proof P dflt (HTy t) (OTy t) (toks ++ [TValid (validation k)]) [] f eq_refl MF) as (f0 & vs & MF0 & DV & CE).
  rewrite CE in E. unfold bind in E. destruct (call P f0 x w) as [[z|e] w1] eqn:E0; [|discriminate].
  destruct (declared_app (OTy t) toks k vs DV) as (us & -> & DU). rewrite (in_order_app us) in E. unfold bind in E.
  destruct (in_order us z w1) as [[z'|e] w2] eqn:E1; [|discriminate].
  assert (z' = z) as ->.
  { eapply in_order_asserting; [|exact E1]. clear - DU AS. unfold declared_validators in DU.
    induction AS as [|k toks A _ IH] in us, DU |- *; [inversion DU; constructor|].
    destruct k as [| |v|]; try (apply IH; exact DU). inversion DU as [|? u ? r U R]; subst. constructor; [|apply IH; exact R].
    destruct v; [|contradiction]. exact (A _ _ U). }
  exists z, w2. split.
  - assert (conforms P dflt (sub_ops []) (own_ops []) [] (HAnn (HTy t) (without_validators (toks ++ [TValid (validation k)]))) z) as C.
    { apply (c02_type_soundness_proof P dflt _ [] f0 HC MF0) with (x := x) (w := w) (w' := w1); [|exact E0].
      cbn. rewrite !app_nil_r. apply without_asserting. }
    apply (checked_class P dflt t _ z N1 N2 C). rewrite eff_style_without. intros F. apply NH.
    unfold eff_style, last_style in *. rewrite fold_left_app in F. exact F.
  - cbn [in_order] in E. unfold bind in E. destruct (k z w2) as [[y'|e] w3]; [|discriminate]. injection E as <- <-. reflexivity.
Qed.

Lemma c82_clamp_field_proof : forall {obj ty W} (P : Py obj ty W) (X : Ops obj ty W) D lt dflt t toks ge le w0 w1 f,
  honest_containers P -> t <> t_none P -> t <> t_ellipsis P -> eff_style dflt toks <> SHollow -> Forall asserting toks ->
  totally_ordered X D lt -> (forall v, type_of P v = t \/ isinstance P v t = true -> D v) -> bound_in D ge -> bound_in D le ->
  clamp_new X ge le w0 = (Ok tt, w1) ->
  make_filler P dflt (HAnn (HTy t) (toks ++ [TValid (validation (clamp X ge le))])) [] = Ok f ->
  forall x w y w', call P f x w = (Ok y, w') -> above lt true ge y /\ below lt true le y.
Proof.
  intros obj ty W P X D lt dflt t toks ge le w0 w1 f HC N1 N2 NH AS TO DT Bg Bl CN MF x w y w' E.
  destruct (last_validator P dflt t toks _ f HC N1 N2 NH AS MF x w y w' E) as (z & w2 & T & K).
  destruct (c63_clamp_proof X D lt ge le z w2 w0 w1 TO (DT z T) Bg Bl CN) as (r & E2 & A & B & _). rewrite K in E2. injection E2 as <- <-. auto.
Qed.

Lemma c82_cyclic_field_proof : forall {obj ty W} (P : Py obj ty W) (X : Ops obj ty W) D val dflt t toks lo hi f,
  honest_containers P -> t <> t_none P -> t <> t_ellipsis P -> eff_style dflt toks <> SHollow -> Forall asserting toks ->
  exact_numbers X D val -> (forall v, type_of P v = t \/ isinstance P v t = true -> D v) -> D lo -> D hi -> (val lo < val hi)%Q ->
  make_filler P dflt (HAnn (HTy t) (toks ++ [TValid (validation (cyclic X lo hi))])) [] = Ok f ->
  forall x w y w', call P f x w = (Ok y, w') -> (val lo <= val y)%Q /\ (val y < val hi)%Q.
Proof.
  intros obj ty W P X D val dflt t toks lo hi f HC N1 N2 NH AS EN DT Dl Dh LT MF x w y w' E.
  destruct (last_validator P dflt t toks _ f HC N1 N2 NH AS MF x w y w' E) as (z & w2 & T & K).
  destruct (c64_cyclic_proof X D val lo hi z w2 EN Dl Dh (DT z T) LT) as (r & E2 & _ & A & B & _). rewrite K in E2. injection E2 as <- <-. auto.
Qed.

Lemma c83_within_field_proof : forall {obj ty W} (P : Py obj ty W) (X : Ops obj ty W) D lt dflt t toks ge le g_eq l_eq a f,
  honest_containers P -> eff_style dflt toks <> SHollow -> Forall asserting toks ->
  In (TValid (validation (within X ge le g_eq l_eq a))) toks -> as_warn a = WarnFalse ->
  totally_ordered X D lt -> bound_in D ge -> bound_in D le ->
  make_filler P dflt (HAnn (HTy t) toks) [] = Ok f ->
  forall x w y w', call P f x w = (Ok y, w') -> D y -> above lt g_eq ge y /\ below lt l_eq le y.
Proof.
  intros obj ty W P X D lt dflt t toks ge le g l a f HC NH AS IN EW TO Bg Bl MF x w y w' E Dy.
  assert (vetted P dflt (sub_ops []) (own_ops []) [] (HAnn (HTy t) toks) y) as V.
  { apply (c16_partial_proof P dflt _ [] f HC MF) with (x := x) (w := w) (w' := w'); [|exact E]. cbn. rewrite !app_nil_r. exact AS. }
  cbn in V. rewrite app_nil_r in V. destruct V as [_ V]. unfold checked in V.
  assert (accepted toks (OTy t) y) as AC by (destruct (eff_style dflt toks); try congruence; try contradiction; exact V).
  destruct (AC _ _ IN eq_refl) as (w1 & w2 & E1).
  destruct (c65_within_proof X D lt ge le g l a y w1 TO Dy Bg Bl EW) as [Y N].
  pose proof (within_iff lt ge le g l y) as I.
  destruct (match ge with None => true | Some a => if g then negb (lt y a) else lt a y end &&
            match le with None => true | Some b => if l then negb (lt b y) else lt y b end) eqn:B.
  - apply I. reflexivity.
  - rewrite N in E1; [discriminate|]. intros Q. apply I in Q. discriminate.
Qed.

Lemma c80_error_proof : forall {obj ty W} (X : Ops obj ty W) v w z w1 e w2, evaluated X v w z w1 -> op_is_str X z = true ->
  op_literal_eval X z w1 = (Raise e, w2) -> exists n, forall m, (n <= m)%nat ->
  exists e', literal_loop X m v w = (Raise e', w2) /\ (is_ValueError e = true -> exc_cls e' = TypeError) /\ (is_ValueError e = false -> e' = e).
Proof.
  intros obj ty W X v w z w1 e w2 H. revert e w2. induction H as [v w|v w z w1 y w' SV EV _ IH]; intros e w2 SZ EZ.
  - exists 1%nat. intros m Hm. destruct m as [|m]; [lia|]. cbn. rewrite SZ. cbn. rewrite EZ.
    eexists. split; [reflexivity|]. split; intro K; rewrite K; reflexivity.
  - destruct (IH e w2 SZ EZ) as [n Hn]. exists (S n). intros m Hm. destruct m as [|m]; [lia|]. cbn. rewrite SV. cbn. rewrite EV. apply Hn. lia.
Qed.

Lemma c102_coercer_proof : forall {obj ty W} (P : Py obj ty W) (X : Ops obj ty W) s t tok f v m, s = SCheck \/ s = SStrict ->
  t <> t_none P -> t <> t_ellipsis P -> coerced_by P X t v tok m ->
  make_filler P s (HAnn (HTy t) [TCoerce tok]) [] = Ok f -> ~ class_ok P s t v -> forall w,
  (forall y w', m w = (Ok y, w') -> class_ok P s t y -> call P f v w = (Ok y, w')) /\
  (forall y w', m w = (Ok y, w') -> ~ class_ok P s t y -> exists e, exc_cls e = TypeError /\ call P f v w = (Raise e, w')) /\
  (forall e w', m w = (Raise e, w') -> exists e', call P f v w = (Raise e', w') /\ (exc_cls e' = TypeError \/ e' = e)).
Proof.
  intros obj ty W P X s t tok f v m HS N1 N2 HC MF HV w.
  destruct (c05_first_coercer_wins_proof P s t [TCoerce tok] [] f N1 N2 MF HS) as (cs & vs & DC & DV & H).
  cbn [own_ops app] in DC, DV. unfold declared_coercers in DC. unfold declared_validators in DV. cbn in DC, DV.
  inversion DV; subst vs. inversion DC as [|? c ? r Y DR]; subst. inversion DR; subst. clear DV DC DR. cbn in Y.
  change (eff_style s (own_ops [] ++ [TCoerce tok])) with s in H.
  destruct (H v w HV) as [_ H']. destruct (H' [] c [] v w eq_refl (tried_nil _ _ _)) as (A1 & A2 & A3 & A4). cbn [in_order] in A1.
  assert (K : (forall y w', m w = (Ok y, w') -> c v w = (Ok y, w')) /\
              (forall e w', m w = (Raise e, w') -> exists e', c v w = (Raise e', w') /\ (exc_cls e' = TypeError \/ e' = e))).
  { clear A1 A2 A3 A4 H H' MF. destruct HC as [f0 args kw|name f0 args kw EM|ns ES|args kw EA|args kw ET|args kw ET]; inversion Y as [g c' HY| |]; subst; clear Y; cbn in HY.
    - injection HY as <-. unfold call_with. split; [auto|intros e w' E; exists e; auto].
    - rewrite EM in HY. cbn in HY. injection HY as <-. unfold call_with. split; [auto|intros e w' E; exists e; auto].
    - injection HY as <-. unfold eval_callback. rewrite ES. cbn [negb]. unfold catch. split; [intros y w' ->; reflexivity|].
      intros e w' ->. destruct (is_Exception e); eexists; (split; [reflexivity|]); [left; reflexivity|right; reflexivity].
    - rewrite EA in HY. injection HY as <-. unfold loose. split; [auto|intros e w' E; exists e; auto].
    - injection HY as <-. unfold falsish, bind at 1. unfold bind. rewrite ET. cbn [negb]. split; [auto|intros e w' E; exists e; auto].
    - injection HY as <-. unfold falsish, bind. rewrite ET. cbn [negb]. split; [auto|intros e w' E; exists e; auto]. }
  destruct K as [K1 K2]. split; [|split].
  - intros y w' E CY. rewrite (A1 y w' (K1 y w' E) CY). reflexivity.
  - intros y w' E CY. apply (A4 y w' eq_refl (K1 y w' E) CY).
  - intros e w' E. destruct (K2 e w' E) as (e' & E' & C). exists e'. split; [apply (A3 e' w' eq_refl E')|exact C].
Qed.

Lemma c103_passed_proof : forall {obj ty W} (P : Py obj ty W) (X : Ops obj ty W) dflt t toks tok cond a f,
  honest_containers P -> eff_style dflt toks <> SHollow -> Forall asserting toks -> In (TValid tok) toks ->
  checks X tok cond a -> as_warn a = WarnFalse ->
  make_filler P dflt (HAnn (HTy t) toks) [] = Ok f ->
  forall x w y w', call P f x w = (Ok y, w') -> exists w1 w2, cond y w1 = (Ok true, w2).
Proof.
  intros obj ty W P X dflt t toks tok cond a f HC NH AS IN CK EW MF x w y w' E.
  assert (vetted P dflt (sub_ops []) (own_ops []) [] (HAnn (HTy t) toks) y) as V.
  { apply (c16_partial_proof P dflt _ [] f HC MF) with (x := x) (w := w) (w' := w'); [|exact E]. cbn. rewrite !app_nil_r. exact AS. }
  cbn in V. rewrite app_nil_r in V. destruct V as [_ V]. unfold checked in V.
  assert (accepted toks (OTy t) y) as AC by (destruct (eff_style dflt toks); try congruence; try contradiction; exact V).
  destruct CK; (destruct (AC _ _ IN eq_refl) as (w1 & w2 & E1)); exists w1; unfold full_match, truth_validator, assert_call in E1;
    rewrite c74_assert_proof in E1; rewrite EW in E1;
    match type of E1 with match ?m with _ => _ end = _ => destruct m as [[[]|e] w3] end; try discriminate; eexists; reflexivity.
Qed.

Lemma c103_decides_proof : forall {obj ty W} (P : Py obj ty W) (X : Ops obj ty W) s t tok cond a f v, s = SCheck \/ s = SStrict ->
  t <> t_none P -> t <> t_ellipsis P -> checks X tok cond a -> as_warn a = WarnFalse ->
  make_filler P s (HAnn (HTy t) [TValid tok]) [] = Ok f -> class_ok P s t v -> forall w b w', cond v w = (Ok b, w') ->
  call P f v w = (if b then Ok v else Raise (match as_err a with ErrExc e => e | ErrText m => mkexc ValueError m end), w').
Proof.
  intros obj ty W P X s t tok cond a f v HS N1 N2 CK EW MF CV w b w' EC.
  destruct (c04_matching_not_coerced_proof P s t [TValid tok] [] f N1 N2 MF HS) as (vs & DV & H).
  cbn [own_ops app] in DV. unfold declared_validators in DV. cbn in DV. inversion DV as [|? k ? r Y DR]; subst. inversion DR; subst. clear DV DR.
  change (eff_style s (own_ops [] ++ [TValid tok])) with s in H. rewrite (proj1 (H v CV w)). cbn [in_order].
  destruct CK; cbn in Y; injection Y as <-; unfold bind at 1; unfold full_match, truth_validator, assert_call; rewrite c74_assert_proof, EC, EW; destruct b; reflexivity.
Qed.

(** the integers of the demo objects: ints, bools and instances of a subclass *)
Definition is_int (v : dobj) : Prop := dnum v <> None.
Definition dlt (a b : dobj) : bool := match dnum a, dnum b with Some x, Some y => Z.ltb x y | _, _ => false end.
Definition dval (v : dobj) : Q := match dnum v with Some z => inject_Z z | None => 0%Q end.
Lemma demo_ordered : totally_ordered demo_ops is_int dlt.
Proof.
  assert (forall v, is_int v -> exists z, dnum v = Some z) as G by (intros v H; unfold is_int in H; destruct (dnum v); [eexists; reflexivity|congruence]).
  unfold dlt. split; [|split; [|split]].
  - intros a b w Ha Hb. destruct (G a Ha) as [x Ex], (G b Hb) as [y Ey]. cbn. unfold dcmp. rewrite Ex, Ey. unfold ret.
    rewrite !(Z.leb_antisym _ _). repeat split. f_equal. f_equal. rewrite <- !Z.leb_antisym.
    destruct (Z.eqb_spec x y), (Z.leb_spec y x), (Z.leb_spec x y); lia || reflexivity.
  - intros a Ha. destruct (G a Ha) as [x ->]. apply Z.ltb_irrefl.
  - intros a b c Ha Hb Hc. destruct (G a Ha) as [x ->], (G b Hb) as [y ->], (G c Hc) as [z ->]. rewrite !Z.ltb_lt. lia.
  - intros a b c Ha Hb Hc. destruct (G a Ha) as [x ->], (G b Hb) as [y ->], (G c Hc) as [z ->]. rewrite !Z.ltb_lt. lia.
Qed.
Lemma demo_exact : exact_numbers demo_ops is_int dval.
Proof.
  assert (forall v, is_int v -> exists z, dnum v = Some z) as G by (intros v H; unfold is_int in H; destruct (dnum v); [eexists; reflexivity|congruence]).
  assert (forall x y, Qle_bool (inject_Z x) (inject_Z y) = Z.leb x y) as QL by (intros; unfold Qle_bool; cbn; rewrite !Z.mul_1_r; reflexivity).
  unfold dval, is_int. split; [|split; [|split; [|split]]]; intros a b w Ha Hb.
  - destruct (G a Ha) as [x Ex], (G b Hb) as [y Ey]. cbn. unfold dcmp. rewrite Ex, Ey, !QL. unfold ret. rewrite <- Z.ltb_antisym. split; reflexivity.
  - destruct (G a Ha) as [x Ex], (G b Hb) as [y Ey]. exists (DInt (x - y)). cbn. unfold darith. rewrite Ex, Ey. repeat split; [discriminate|].
    unfold Qeq; cbn; lia.
  - destruct (G a Ha) as [x Ex], (G b Hb) as [y Ey]. exists (DInt (x + y)). cbn. unfold darith. rewrite Ex, Ey. repeat split; [discriminate|].
    unfold Qeq; cbn; lia.
  - intros NZ. destruct (G a Ha) as [x Ex], (G b Hb) as [y Ey]. rewrite Ey in NZ. assert (y <> 0) as Y by (intros ->; apply NZ; reflexivity).
    exists (DInt (x mod y)). split; [cbn; unfold darith; rewrite Ex, Ey; destruct y; [congruence| |]; reflexivity|]. split; [discriminate|].
    rewrite Ex, Ey. cbn [dnum].
    assert (Qfloor (inject_Z x / inject_Z y) = x / y) as ->.
    { unfold Qdiv, Qmult, Qinv, inject_Z. cbn. destruct y as [|p|p]; [congruence| |]; cbn [Qfloor Qnum Qden].
      - rewrite Z.mul_1_r. reflexivity.
      - replace (Z.neg p) with (- Zpos p) by reflexivity. rewrite <- (Z.opp_involutive x) at 2. rewrite Z.div_opp_opp by lia.
        f_equal. lia. }
    rewrite <- inject_Z_mult. unfold Qminus. rewrite <- inject_Z_opp, <- inject_Z_plus. rewrite Z.mod_eq by assumption. reflexivity.
  - intros NZ. destruct (G a Ha) as [x Ex], (G b Hb) as [y Ey]. rewrite Ey in NZ. assert (y = 0) as -> by (unfold Qeq in NZ; cbn in NZ; lia).
    cbn. rewrite Ey. eexists. reflexivity.
Qed.

Definition dsize (v : dobj) : nat := match v with DStr s => String.length s | _ => 0 end.
Lemma substring_length : forall n s, (String.length (substring 0 n s) <= n)%nat.
Proof. induction n; intros [|a s]; cbn; try lia. specialize (IHn s). lia. Qed.

Definition demo_field : @hint dobj dty demo_state :=
  HAnn (HTy TInt) ([TCoerce (coercion (call_with demo_ops (DFun 0) [] []))] ++
                   [TValid (validation (clamp demo_ops (Some (DInt 1)) (Some (DInt 5))))]).
