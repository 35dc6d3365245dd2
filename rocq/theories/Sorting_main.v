(** Sorting_main.v -- proofs of the properties stated in Props_Sorting.v: sorted(), min() and max() of ordered records (records/record.py:655-694) *)

From Verif Require Import Base Py Select Filler Spec_Filler Classes Spec_Classes Runtime Record Spec_Record Spec_Inst Sorting Spec_Sorting Demo DemoRt DemoCls.
From Verif Require Dict_proofs Record_proofs Inst_proofs Inst_main.
Open Scope string_scope.
Open Scope list_scope.

Import Dict_proofs Record_proofs Inst_proofs Inst_main.

Section Sort.
Context {obj ty W : Type} (R : Rt obj ty W) (ctx : ty -> option (@cls obj ty W)).
Variable w : W.
Variable good : obj -> Prop.
Variable lt : obj -> obj -> bool.
Hypothesis CMP : forall x y, good x -> good y -> compare R ctx CLt x y w = (Ok (lt x y), w).
Hypothesis CGP : forall x y, good x -> good y -> compare R ctx CGt x y w = (Ok (lt y x), w).
Hypothesis IRR : forall x, good x -> lt x x = false.
Hypothesis TRANS : forall x y z, good x -> good y -> good z -> lt x y = true -> lt y z = true -> lt x z = true.
(** being equal to something smaller *)
Hypothesis WEAK : forall x y z, good x -> good y -> good z -> lt x y = false -> lt y z = false -> lt x z = false.

Inductive asc : list obj -> Prop :=
| asc0 : asc []
| asc1 x r : (forall y, In y r -> lt y x = false) -> asc r -> asc (x :: r).

Lemma insert_ok : forall l x, (forall y, In y (x :: l) -> good y) -> asc l ->
  exists r, insert R ctx x l w = (Ok r, w) /\ Permutation (l ++ [x]) r /\ asc r /\
    forall p : obj -> bool, (forall y z, In y (x :: l) -> In z (x :: l) -> p y = true -> p z = true -> lt y z = false) -> filter p r = filter p (l ++ [x]).
Proof.
  induction l as [|y r IH]; intros x HG HA.
  - exists [x]. split; [reflexivity|]. split; [reflexivity|]. split; [repeat constructor; intros ? []|]. reflexivity.
  - inversion HA as [|? ? HY HR]; subst. cbn [insert]. unfold bind.
    assert (GX : good x) by (apply HG; left; reflexivity). assert (GY : good y) by (apply HG; right; left; reflexivity). rewrite CMP by assumption.
    destruct (lt x y) eqn:EX.
    + exists (x :: y :: r). split; [reflexivity|]. split; [|split].
      * apply Permutation_sym. apply (Permutation_cons_append (y :: r) x).
      * constructor; [|exact HA]. intros z HZ. assert (GZ : good z) by (apply HG; right; exact HZ).
        destruct (lt z x) eqn:EZ; [|reflexivity]. exfalso.
        destruct HZ as [<-|HZ].
        -- assert (lt x x = true) by (apply (TRANS x y x); assumption). rewrite IRR in H by assumption. discriminate.
        -- assert (lt z y = true) by (apply (TRANS z x y); assumption). rewrite HY in H by exact HZ. discriminate.
      * intros p HP. change (x :: y :: r) with ([x] ++ (y :: r)). rewrite !filter_app. cbn [filter].
        destruct (p x) eqn:PX; [|cbn; rewrite app_nil_r; reflexivity].
        assert (NONE : filter p (y :: r) = []).
        { assert (H : forall z, In z (y :: r) -> p z = false).
          { intros z HZ. destruct (p z) eqn:PZ; [|reflexivity]. exfalso.
            assert (E : lt x z = false) by (apply HP; auto; [left; reflexivity|right; exact HZ]).
            assert (GZ : good z) by (apply HG; right; exact HZ).
            destruct HZ as [<-|HZ]; [congruence|].
            assert (lt x y = false) by (apply (WEAK x z y); auto). congruence. }
          clear - H. induction (y :: r) as [|z l IH]; [reflexivity|]. cbn. rewrite H by (left; reflexivity). apply IH. intros; apply H; right; assumption. }
        cbn [filter] in NONE. rewrite NONE. reflexivity.
    + destruct (IH x) as (r' & E & PM & AS & ST); [intros z [<-|HZ]; apply HG; [left; reflexivity|right; right; exact HZ]|exact HR|].
      rewrite E. exists (y :: r'). split; [reflexivity|]. split; [cbn; constructor; exact PM|]. split.
      * constructor; [|exact AS]. intros z HZ. apply (Permutation_in _ (Permutation_sym PM)) in HZ. apply in_app_or in HZ. destruct HZ as [HZ|[<-|[]]]; [apply HY; exact HZ|exact EX].
      * intros p HP. cbn [filter app]. rewrite ST; [reflexivity|]. intros a b HA1 HB1. apply HP.
        -- destruct HA1 as [<-|HA1]; [left; reflexivity|right; right; exact HA1].
        -- destruct HB1 as [<-|HB1]; [left; reflexivity|right; right; exact HB1].
Qed.
Lemma insert_all_ok : forall xs l, (forall y, In y (l ++ xs) -> good y) -> asc l ->
  exists r, insert_all R ctx xs l w = (Ok r, w) /\ Permutation (l ++ xs) r /\ asc r /\
    forall p : obj -> bool, (forall y z, In y (l ++ xs) -> In z (l ++ xs) -> p y = true -> p z = true -> lt y z = false) -> filter p r = filter p (l ++ xs).
Proof.
  induction xs as [|x r IH]; intros l HG HA.
  - exists l. rewrite app_nil_r. auto.
  - cbn [insert_all]. unfold bind. destruct (insert_ok l x) as (l1 & E & PM & AS & ST).
    + intros y [<-|HY]; apply HG; apply in_or_app; [right; left; reflexivity|left; exact HY].
    + exact HA.
    + rewrite E. assert (IN : forall y, In y (l1 ++ r) <-> In y (l ++ x :: r)).
      { intro y. rewrite !in_app_iff. cbn [In]. split.
        - intros [HY|HY]; [|tauto]. apply (Permutation_in _ (Permutation_sym PM)) in HY. apply in_app_or in HY. cbn [In] in HY. tauto.
        - intros [HY|[HY|HY]]; [left|left|right; exact HY]; apply (Permutation_in _ PM); apply in_or_app; [left; exact HY|right; left; exact HY]. }
      destruct (IH l1) as (l2 & E2 & PM2 & AS2 & ST2); [intros y HY; apply HG; apply IN; exact HY|exact AS|].
      exists l2. split; [exact E2|]. split; [|split; [exact AS2|]].
      * eapply Permutation_trans; [|exact PM2]. replace (l ++ x :: r) with ((l ++ [x]) ++ r) by (rewrite <- app_assoc; reflexivity). apply Permutation_app_tail. exact PM.
      * intros p HP. rewrite ST2.
        -- rewrite filter_app, ST.
           ++ replace (l ++ x :: r) with ((l ++ [x]) ++ r) by (rewrite <- app_assoc; reflexivity). rewrite (filter_app p (l ++ [x]) r). reflexivity.
           ++ assert (SUB : forall y, In y (x :: l) -> In y (l ++ x :: r)) by (intros y [<-|HY]; apply in_or_app; [right; left; reflexivity|left; exact HY]).
              intros y z HY HZ. apply HP; apply SUB; assumption.
        -- intros y z HY HZ. apply HP; apply IN; assumption.
Qed.
Lemma best_lt : forall l m, good m -> (forall y, In y l -> good y) ->
  exists b, best R ctx CLt m l w = (Ok b, w) /\ exists before after, m :: l = before ++ b :: after /\
    (forall y, In y before -> lt b y = true) /\ (forall y, In y after -> lt y b = false).
Proof.
  assert (H : forall l m, good m -> (forall y, In y l -> good y) ->
    exists b, best R ctx CLt m l w = (Ok b, w) /\
      (b = m /\ (forall y, In y l -> lt y m = false) \/
       exists before after, l = before ++ b :: after /\ lt b m = true /\ (forall y, In y before -> lt b y = true) /\ (forall y, In y after -> lt y b = false))).
  { induction l as [|y r IH]; intros m GM HG; [exists m; split; [reflexivity|]; left; split; [reflexivity|intros ? []]|].
    cbn [best]. unfold bind. assert (GY : good y) by (apply HG; left; reflexivity). rewrite CMP by assumption.
    assert (HR : forall z, In z r -> good z) by (intros z HZ; apply HG; right; exact HZ). destruct (lt y m) eqn:E.
    - destruct (IH y GY HR) as (b & EB & [[-> HA]|(bf & af & EL & LB & B1 & B2)]); exists b || exists y; (split; [exact EB|]); right.
      + exists [], r. split; [reflexivity|]. split; [exact E|]. split; [intros ? []|exact HA].
      + assert (GB : good b) by (apply HR; rewrite EL; apply in_or_app; right; left; reflexivity).
        exists (y :: bf), af. split; [rewrite EL; reflexivity|]. split; [exact (TRANS b y m GB GY GM LB E)|]. split; [|exact B2].
        intros z [<-|HZ]; [exact LB|exact (B1 z HZ)].
    - destruct (IH m GM HR) as (b & EB & [[-> HA]|(bf & af & EL & LB & B1 & B2)]).
      + exists m. split; [exact EB|]. left. split; [reflexivity|]. intros z [<-|HZ]; [exact E|exact (HA z HZ)].
      + exists b. split; [exact EB|]. right. assert (GB : good b) by (apply HR; rewrite EL; apply in_or_app; right; left; reflexivity).
        exists (y :: bf), af. split; [rewrite EL; reflexivity|]. split; [exact LB|]. split; [|exact B2].
        intros z [<-|HZ]; [|exact (B1 z HZ)]. destruct (lt b y) eqn:EZ; [reflexivity|]. pose proof (WEAK b y m GB GY GM EZ E). congruence. }
  intros l m GM HG. destruct (H l m GM HG) as (b & EB & [[-> HA]|(bf & af & EL & LB & B1 & B2)]).
  - exists m. split; [exact EB|]. exists [], l. split; [reflexivity|]. split; [intros ? []|exact HA].
  - exists b. split; [exact EB|]. exists (m :: bf), af. split; [rewrite EL; reflexivity|]. split; [|exact B2]. intros z [<-|HZ]; [exact LB|exact (B1 z HZ)].
Qed.
End Sort.
Lemma best_flip : forall {obj ty W} (R : Rt obj ty W) ctx w (good : obj -> Prop) (lt : obj -> obj -> bool),
  (forall x y, good x -> good y -> compare R ctx CGt x y w = (Ok (lt y x), w)) ->
  (forall x y z, good x -> good y -> good z -> lt x y = true -> lt y z = true -> lt x z = true) ->
  (forall x y z, good x -> good y -> good z -> lt x y = false -> lt y z = false -> lt x z = false) ->
  forall l m, good m -> (forall y, In y l -> good y) ->
  exists b, best R ctx CGt m l w = (Ok b, w) /\ exists before after, m :: l = before ++ b :: after /\
    (forall y, In y before -> lt y b = true) /\ (forall y, In y after -> lt b y = false).
Proof.
  intros obj ty W R ctx w good lt CGP TRANS WEAK.
  assert (H : forall l m, good m -> (forall y, In y l -> good y) ->
    exists b, best R ctx CGt m l w = (Ok b, w) /\
      (b = m /\ (forall y, In y l -> lt m y = false) \/
       exists before after, l = before ++ b :: after /\ lt m b = true /\ (forall y, In y before -> lt y b = true) /\ (forall y, In y after -> lt b y = false))).
  { induction l as [|y r IH]; intros m GM HG; [exists m; split; [reflexivity|]; left; split; [reflexivity|intros ? []]|].
    cbn [best]. unfold bind. assert (GY : good y) by (apply HG; left; reflexivity). rewrite CGP by assumption.
    assert (HR : forall z, In z r -> good z) by (intros z HZ; apply HG; right; exact HZ). destruct (lt m y) eqn:E.
    - destruct (IH y GY HR) as (b & EB & [[-> HA]|(bf & af & EL & LB & B1 & B2)]); exists b || exists y; (split; [exact EB|]); right.
      + exists [], r. split; [reflexivity|]. split; [exact E|]. split; [intros ? []|exact HA].
      + assert (GB : good b) by (apply HR; rewrite EL; apply in_or_app; right; left; reflexivity).
        exists (y :: bf), af. split; [rewrite EL; reflexivity|]. split; [exact (TRANS m y b GM GY GB E LB)|]. split; [|exact B2].
        intros z [<-|HZ]; [exact LB|exact (B1 z HZ)].
    - destruct (IH m GM HR) as (b & EB & [[-> HA]|(bf & af & EL & LB & B1 & B2)]).
      + exists m. split; [exact EB|]. left. split; [reflexivity|]. intros z [<-|HZ]; [exact E|exact (HA z HZ)].
      + exists b. split; [exact EB|]. right. assert (GB : good b) by (apply HR; rewrite EL; apply in_or_app; right; left; reflexivity).
        exists (y :: bf), af. split; [rewrite EL; reflexivity|]. split; [exact LB|]. split; [|exact B2].
        intros z [<-|HZ]; [|exact (B1 z HZ)]. destruct (lt y b) eqn:EZ; [reflexivity|]. pose proof (WEAK m y b GM GY GB E EZ). congruence. }
  intros l m GM HG. destruct (H l m GM HG) as (b & EB & [[-> HA]|(bf & af & EL & LB & B1 & B2)]).
  - exists m. split; [exact EB|]. exists [], l. split; [reflexivity|]. split; [intros ? []|exact HA].
  - exists b. split; [exact EB|]. exists (m :: bf), af. split; [rewrite EL; reflexivity|]. split; [|exact B2]. intros z [<-|HZ]; [exact LB|exact (B1 z HZ)].
Qed.

Section Records.
Context {obj ty W : Type} (R : Rt obj ty W) (ctx : ty -> option (@cls obj ty W)) (eqb ltb : obj -> obj -> bool) (D : string -> obj -> Prop) (c : @cls obj ty W) (w : W).
Hypothesis HOR : c_ordered c = true.
Hypothesis HO : forall k, In k (ordering_fields c) -> ordered_domain R eqb ltb (D k).
Notation good := (sortable R ctx D c w).
Definition ltw (x y : obj) : bool := match fst (compare R ctx CLt x y w) with Ok b => b | Raise _ => false end.
Lemma ltw_spec : forall x y, good x -> good y ->
  compare R ctx CLt x y w = (Ok (ltw x y), w) /\ compare R ctx CGt x y w = (Ok (ltw y x), w) /\
  (ltw x y = true <-> less R eqb ltb c w x y) /\ (ltw x y = false /\ ltw y x = false <-> ties R eqb c w x y).
Proof.
  intros x y (i & HI & VI) (j & HJ & VJ).
  destruct (c57_lexicographic_proof R ctx eqb ltb D c w x i y j HOR HI HJ HO VI VJ) as (lt & le & gt & ge & E1 & _ & E3 & _ & L1 & _ & L3 & _).
  destruct (c57_lexicographic_proof R ctx eqb ltb D c w y j x i HOR HJ HI HO VJ VI) as (lt' & le' & gt' & ge' & F1 & _ & _ & _ & M1 & _).
  destruct (c57_order_proof R ctx eqb ltb D c w HOR HO) as (_ & _ & TRI). destruct (TRI x i y j (conj HI VI) (conj HJ VJ)) as (T1 & T2 & _).
  destruct (TRI y j x i (conj HJ VJ) (conj HI VI)) as (T1' & T2' & _).
  unfold ltw. rewrite E1, F1. cbn [fst]. rewrite E1, F1 in T1, T2, T1', T2'. cbn [fst] in T1, T2, T1', T2'.
  pose proof HI as (_ & LX & _). pose proof HJ as (_ & LY & _).
  split; [reflexivity|]. split; [rewrite E3; f_equal; f_equal; apply Bool.eq_true_iff_eq; rewrite L3, M1; reflexivity|]. split.
  - rewrite L1. split; [intro H; exists i, j; auto|]. intros (i' & j' & A & B & H). assert (i' = i) by congruence. assert (j' = j) by congruence. subst. exact H.
  - split.
    + intros [-> ->]. destruct T1 as [H|[H|H]]; try discriminate. exists i, j. auto.
    + intros (i' & j' & A & B & H). assert (i' = i) by congruence. assert (j' = j) by congruence. subst. split.
      * destruct lt; [|reflexivity]. exfalso. exact (proj1 (T2 eq_refl) H).
      * destruct lt'; [|reflexivity]. exfalso. destruct T1 as [Z|[Z|Z]].
        -- exact (proj1 (T2 Z) H).
        -- destruct (T2' eq_refl) as [N _]. apply N. intros k a b HK HA HB. destruct HO with k as (_ & _ & SYM & _); [exact HK|]. apply SYM; [eapply VI; eassumption|eapply VJ; eassumption|]. eapply H; eassumption.
        -- destruct (T2' eq_refl) as [N _]. apply N. intros k a b HK HA HB. destruct HO with k as (_ & _ & SYM & _); [exact HK|]. apply SYM; [eapply VI; eassumption|eapply VJ; eassumption|]. eapply H; eassumption.
Qed.
Lemma ltw_irr : forall x, good x -> ltw x x = false.
Proof.
  intros x G. pose proof G as (i & HI & VI). destruct (c57_order_proof R ctx eqb ltb D c w HOR HO) as (IR & _). destruct (ltw x x) eqn:E; [|reflexivity].
  exfalso. apply (IR x i (conj HI VI)). rewrite (proj1 (ltw_spec x x G G)), E. reflexivity.
Qed.
Lemma ltw_trans : forall x y z, good x -> good y -> good z -> ltw x y = true -> ltw y z = true -> ltw x z = true.
Proof.
  intros x y z GX GY GZ E1 E2. pose proof GX as (i & HI & VI). pose proof GY as (j & HJ & VJ). pose proof GZ as (l & HL & VL).
  destruct (c57_order_proof R ctx eqb ltb D c w HOR HO) as (_ & TR & _).
  specialize (TR x i y j z l (conj HI VI) (conj HJ VJ) (conj HL VL)). 
  rewrite (proj1 (ltw_spec x y GX GY)), (proj1 (ltw_spec y z GY GZ)), (proj1 (ltw_spec x z GX GZ)), E1, E2 in TR. specialize (TR eq_refl eq_refl). cbn in TR. congruence.
Qed.
Lemma ties_trans : forall x y z, good x -> good y -> good z -> ties R eqb c w x y -> ties R eqb c w y z -> ties R eqb c w x z.
Proof.
  intros x y z (i & HI & VI) (j & HJ & VJ) (l & HL & VL) (i' & j' & A1 & A2 & A3) (j'' & l' & B1 & B2 & B3).
  pose proof HI as (_ & LX & _ & _ & FX). pose proof HJ as (_ & LY & _ & _ & FY). pose proof HL as (_ & LZ & _).
  assert (i' = i) by congruence. assert (j' = j) by congruence. assert (j'' = j) by congruence. assert (l' = l) by congruence. subst.
  exists i, l. split; [assumption|]. split; [assumption|]. intros k a b HK HA HB.
  destruct (FY k) as [m EM]. { unfold ordering_fields, keys in HK |- *. apply in_map_iff in HK. destruct HK as (kf & <- & HK). apply filter_In in HK. apply in_map. apply HK. }
  destruct (HO k HK) as (_ & _ & _ & TR & _). apply (TR a m b); try (eapply VI; eassumption); try (eapply VJ; eassumption); try (eapply VL; eassumption); [eapply A3; eassumption|eapply B3; eassumption].
Qed.
Lemma ltw_weak : forall x y z, good x -> good y -> good z -> ltw x y = false -> ltw y z = false -> ltw x z = false.
Proof.
  intros x y z GX GY GZ E1 E2. destruct (ltw x z) eqn:E; [|reflexivity]. exfalso.
  destruct (ltw y x) eqn:EYX.
  - pose proof (ltw_trans y x z GY GX GZ EYX E). congruence.
  - destruct (ltw z y) eqn:EZY.
    + pose proof (ltw_trans x z y GX GZ GY E EZY). congruence.
    + destruct (ltw_spec x y GX GY) as (_ & _ & _ & T1). destruct (ltw_spec y z GY GZ) as (_ & _ & _ & T2). destruct (ltw_spec x z GX GZ) as (_ & _ & _ & T3).
      assert (T : ties R eqb c w x z) by (apply (ties_trans x y z GX GY GZ); [apply T1|apply T2]; auto). apply T3 in T. destruct T. congruence.
Qed.
Lemma asc_ascending : forall l, (forall y, In y l -> good y) -> asc ltw l -> ascending R eqb ltb c w l.
Proof.
  intros l HG HA. induction HA as [|x r HX HR IH]; [constructor|]. constructor; [|apply IH; intros; apply HG; right; assumption].
  intros y HY HL. destruct (ltw_spec y x) as (_ & _ & H & _); [apply HG; right; exact HY|apply HG; left; reflexivity|]. apply H in HL. rewrite HX in HL by exact HY. discriminate.
Qed.
Lemma sort_records : forall l, (forall x, In x l -> good x) ->
  exists r, sort R ctx l w = (Ok r, w) /\ Permutation l r /\ asc ltw r /\ same_order_of_ties R eqb c w l r.
Proof.
  intros l HG. destruct (insert_all_ok R ctx w good ltw (fun x y GX GY => proj1 (ltw_spec x y GX GY)) ltw_irr ltw_trans ltw_weak l [] HG (asc0 ltw)) as (r & E & PM & AS & ST).
  exists r. split; [exact E|]. split; [exact PM|]. split; [exact AS|]. intros p HP. apply ST. intros y z HY HZ PY PZ.
  destruct (ltw_spec y z (HG y HY) (HG z HZ)) as (_ & _ & _ & H). apply H. apply HP; assumption.
Qed.
End Records.

Lemma c149_sorted_proof : forall {obj ty W} (R : Rt obj ty W) ctx eqb ltb D c w l,
  c_ordered c = true -> (forall k, In k (ordering_fields c) -> ordered_domain R eqb ltb (D k)) ->
  (forall x, In x l -> sortable R ctx D c w x) ->
  exists r, sort R ctx l w = (Ok r, w) /\ Permutation l r /\ ascending R eqb ltb c w r /\ same_order_of_ties R eqb c w l r.
Proof.
  intros obj ty W R ctx eqb ltb D c w l HOR HO HG. destruct (sort_records R ctx eqb ltb D c w HOR HO l HG) as (r & E & PM & AS & ST).
  exists r. split; [exact E|]. split; [exact PM|]. split; [|exact ST]. apply (asc_ascending R ctx eqb ltb D c w HOR HO); [|exact AS].
  intros y HY. apply HG. apply (Permutation_in _ (Permutation_sym PM)). exact HY.
Qed.

Lemma c149_reverse_proof : forall {obj ty W} (R : Rt obj ty W) ctx eqb ltb D c w l,
  c_ordered c = true -> (forall k, In k (ordering_fields c) -> ordered_domain R eqb ltb (D k)) ->
  (forall x, In x l -> sortable R ctx D c w x) ->
  exists r, sort_reverse R ctx l w = (Ok r, w) /\ Permutation l r /\ ascending R eqb ltb c w (rev r) /\ same_order_of_ties R eqb c w l r.
Proof.
  intros obj ty W R ctx eqb ltb D c w l HOR HO HG.
  assert (HG' : forall x, In x (rev l) -> sortable R ctx D c w x) by (intros x HX; apply HG; apply in_rev; exact HX).
  destruct (sort_records R ctx eqb ltb D c w HOR HO (rev l) HG') as (r & E & PM & AS & ST).
  exists (rev r). split; [unfold sort_reverse, bind; rewrite E; reflexivity|].
  assert (PM' : Permutation l (rev r)). { eapply Permutation_trans; [apply Permutation_rev|]. eapply Permutation_trans; [exact PM|]. apply Permutation_rev. }
  split; [exact PM'|]. split.
  - rewrite rev_involutive. apply (asc_ascending R ctx eqb ltb D c w HOR HO); [|exact AS]. intros y HY. apply HG'. apply (Permutation_in _ (Permutation_sym PM)). exact HY.
  - intros p HP. assert (FR : forall (f : obj -> bool) k, filter f (rev k) = rev (filter f k)).
    { intros f k. induction k as [|a k IH]; [reflexivity|]. cbn. rewrite filter_app, IH. cbn. destruct (f a); cbn; [reflexivity|apply app_nil_r]. }
    rewrite FR, ST; [rewrite FR; apply rev_involutive|]. intros x y HX HY. apply HP; apply in_rev; assumption.
Qed.

Lemma c149_min_max_proof : forall {obj ty W} (R : Rt obj ty W) ctx eqb ltb D c w l,
  c_ordered c = true -> (forall k, In k (ordering_fields c) -> ordered_domain R eqb ltb (D k)) ->
  (forall x, In x l -> sortable R ctx D c w x) -> l <> [] ->
  (exists m, minimum R ctx l w = (Ok m, w) /\ exists before after, l = before ++ m :: after /\
     (forall y, In y before -> less R eqb ltb c w m y) /\ (forall y, In y after -> ~ less R eqb ltb c w y m)) /\
  (exists m, maximum R ctx l w = (Ok m, w) /\ exists before after, l = before ++ m :: after /\
     (forall y, In y before -> less R eqb ltb c w y m) /\ (forall y, In y after -> ~ less R eqb ltb c w m y)).
Proof.
  intros obj ty W R ctx eqb ltb D c w l HOR HO HG NE. destruct l as [|x r]; [contradiction|]. clear NE.
  pose proof (ltw_spec R ctx eqb ltb D c w HOR HO) as SP.
  assert (GX : sortable R ctx D c w x) by (apply HG; left; reflexivity). assert (GR : forall y, In y r -> sortable R ctx D c w y) by (intros; apply HG; right; assumption).
  split.
  - destruct (best_lt R ctx w _ (ltw R ctx w) (fun x y GX GY => proj1 (SP x y GX GY)) (ltw_trans R ctx eqb ltb D c w HOR HO) (ltw_weak R ctx eqb ltb D c w HOR HO) r x GX GR) as (b & E & bf & af & EL & B1 & B2).
    exists b. split; [exact E|]. exists bf, af. split; [exact EL|].
    assert (IN : forall y, In y (bf ++ b :: af) -> sortable R ctx D c w y) by (intros y HY; apply HG; rewrite EL; exact HY).
    split; intros y HY.
    + apply (SP b y); [apply IN; apply in_or_app; right; left; reflexivity|apply IN; apply in_or_app; left; exact HY|exact (B1 y HY)].
    + intro H. apply (SP y b) in H; [rewrite (B2 y HY) in H; discriminate|apply IN; apply in_or_app; right; right; exact HY|apply IN; apply in_or_app; right; left; reflexivity].
  - destruct (best_flip R ctx w _ (ltw R ctx w) (fun x y GX GY => proj1 (proj2 (SP x y GX GY))) (ltw_trans R ctx eqb ltb D c w HOR HO) (ltw_weak R ctx eqb ltb D c w HOR HO) r x GX GR) as (b & E & bf & af & EL & B1 & B2).
    exists b. split; [exact E|]. exists bf, af. split; [exact EL|].
    assert (IN : forall y, In y (bf ++ b :: af) -> sortable R ctx D c w y) by (intros y HY; apply HG; rewrite EL; exact HY).
    split; intros y HY.
    + apply (SP y b); [apply IN; apply in_or_app; left; exact HY|apply IN; apply in_or_app; right; left; reflexivity|exact (B1 y HY)].
    + intro H. apply (SP b y) in H; [rewrite (B2 y HY) in H; discriminate|apply IN; apply in_or_app; right; left; reflexivity|apply IN; apply in_or_app; right; right; exact HY].
Qed.

Section Any.
Context {obj : Type}.
Lemma asc_split : forall (lt : obj -> obj -> bool) r, (forall before x after y, r = before ++ x :: after -> In y after -> lt y x = false) -> asc lt r.
Proof.
  induction r as [|x r IH]; intros H; constructor.
  - intros y HY. apply (H [] x r y); auto.
  - apply IH. intros before z after y E HY. apply (H (x :: before) z after y); [rewrite E; reflexivity|exact HY].
Qed.

(** a list can be sorted stably in one way only *)
Lemma stable_unique : forall (lt : obj -> obj -> bool) (l : list obj), weak_order l lt -> forall r1 r2,
  (forall x, In x r1 -> In x l) -> asc lt r1 -> asc lt r2 -> Permutation r1 r2 ->
  (forall p : obj -> bool, (forall x y, In x l -> In y l -> p x = true -> p y = true -> lt x y = false) -> filter p r1 = filter p r2) -> r1 = r2.
Proof.
  intros lt l (IRR & TRANS & WEAK). induction r1 as [|a r1 IH]; intros r2 HI A1 A2 PM HF.
  - apply Permutation_nil in PM. congruence.
  - destruct r2 as [|b r2]; [apply Permutation_sym, Permutation_nil in PM; discriminate|].
    inversion A1 as [|? ? HA AR1]; subst. inversion A2 as [|? ? HB AR2]; subst.
    assert (IA : In a l) by (apply HI; left; reflexivity).
    assert (IB : In b l) by (apply HI; apply (Permutation_in _ (Permutation_sym PM)); left; reflexivity).
    assert (AB : lt a b = false).
    { destruct (Permutation_in a PM (or_introl eq_refl)) as [<-|H]; [apply IRR; exact IA|apply HB; exact H]. }
    assert (BA : lt b a = false).
    { destruct (Permutation_in b (Permutation_sym PM) (or_introl eq_refl)) as [<-|H]; [apply IRR; exact IA|apply HA; exact H]. }
    assert (E : a = b).
    { specialize (HF (fun x => negb (lt a x) && negb (lt x a))). cbn in HF. rewrite (IRR a IA), AB, BA in HF. cbn in HF.
      assert (X : a :: filter (fun x => negb (lt a x) && negb (lt x a)) r1 = b :: filter (fun x => negb (lt a x) && negb (lt x a)) r2).
      { apply HF. intros x y IX IY PX PY. apply andb_prop in PX, PY. destruct PX as [PX1 PX2], PY as [PY1 PY2].
        apply negb_true_iff in PX1, PX2, PY1, PY2. apply (WEAK x a y); auto. }
      congruence. }
    subst b. f_equal. apply IH; auto.
    + intros x HX. apply HI. right. exact HX.
    + exact (Permutation_cons_inv PM).
    + intros p HP. specialize (HF p HP). cbn in HF. destruct (p a); [injection HF as HF|]; exact HF.
Qed.
End Any.

Lemma c149_any_sort_proof : forall {obj ty W} (R : Rt obj ty W) ctx eqb ltb D c w l s,
  c_ordered c = true -> (forall k, In k (ordering_fields c) -> ordered_domain R eqb ltb (D k)) ->
  (forall x, In x l -> sortable R ctx D c w x) -> sorts l s ->
  exists r, follow R ctx s w = (Ok r, w) /\ sort R ctx l w = (Ok r, w).
Proof.
  intros obj ty W R ctx eqb ltb D c w l s HOR HO HG [HA HS].
  pose proof (ltw_spec R ctx eqb ltb D c w HOR HO) as SP.
  set (lt := ltw R ctx w) in *.
  assert (WO : weak_order l lt).
  { split; [|split].
    - intros x IX. apply (ltw_irr R ctx eqb ltb D c w HOR HO x (HG x IX)).
    - intros x y z IX IY IZ. apply (ltw_trans R ctx eqb ltb D c w HOR HO x y z (HG x IX) (HG y IY) (HG z IZ)).
    - intros x y z IX IY IZ. apply (ltw_weak R ctx eqb ltb D c w HOR HO x y z (HG x IX) (HG y IY) (HG z IZ)). }
  assert (F : forall s, asks_about l s -> follow R ctx s w = (Ok (outcome_of lt s), w)).
  { intros s0. induction s0 as [r|x y yes IHy no IHn]; intros A; [reflexivity|]. destruct A as (IX & IY & AY & AN).
    cbn [follow outcome_of]. unfold bind. rewrite (proj1 (SP x y (HG x IX) (HG y IY))). fold lt. destruct (lt x y); auto. }
  exists (outcome_of lt s). split; [apply F; exact HA|].
  destruct (sort_records R ctx eqb ltb D c w HOR HO l HG) as (r & E & PM & AS & ST). rewrite E. do 2 f_equal.
  destruct (HS lt WO) as (PM' & AS' & ST').
  apply (stable_unique lt l WO); [|exact AS|apply asc_split; exact AS'| |].
  - intros x HX. apply (Permutation_in _ (Permutation_sym PM)). exact HX.
  - eapply Permutation_trans; [apply Permutation_sym; exact PM|exact PM'].
  - intros p HP. rewrite (ST' p HP). apply ST. intros x y IX IY PX PY. apply (SP x y (HG x IX) (HG y IY)).
    split; apply HP; assumption.
Qed.

Lemma c149_empty_proof : forall {obj ty W} (R : Rt obj ty W) ctx w,
  (exists e, minimum R ctx [] w = (Raise e, w) /\ exc_cls e = ValueError) /\
  (exists e, maximum R ctx [] w = (Raise e, w) /\ exc_cls e = ValueError).
Proof.
 intros. split; eexists; split; reflexivity. Qed.
