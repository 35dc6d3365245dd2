(** Added_main.v -- proofs of the properties stated in Props_Added.v: tokens added in pre_bind (records/field.py:128-220, records/fillers/filler.py:87-96) *)

From Verif Require Import Base Py Filler Spec_Filler Spec_Added Demo.
From Verif Require Import Filler_proofs Filler_sound Filler_shape Filler_eqs Hints_docs.

Section Added.
Context {obj ty W : Type} (P : Py obj ty W) (dflt : style).
Notation token := (@token obj ty W).
Notation hint := (@hint obj ty W).
Notation filler := (@filler obj ty W).
Notation afiller := (@afiller obj ty W).
Notation leaf := (leaf P dflt).
Notation made := (made P dflt).
Notation ext := (ext P).
Notation like := (@like obj ty W).
Notation op := (option nat * token)%type.

Ltac crush := repeat match goal with
  | H : obind ?x _ = Ok _ |- _ => let E := fresh "E" in let a := fresh "a" in apply obind_Ok in H; destruct H as (a & E & H)
  | H : exists _, _ |- _ => destruct H
  | H : _ /\ _ |- _ => destruct H
  | H : Ok _ = Ok _ |- _ => injection H as H; subst
  end.

Lemma nth_ext_eq : forall {A} (l m : list A), (forall n, nth_error l n = nth_error m n) -> l = m.
Proof.
  induction l as [|a r IH]; intros [|b m] H; [reflexivity|specialize (H 0); discriminate|specialize (H 0); discriminate|].
  f_equal; [specialize (H 0); injection H; auto|]. apply IH. intros n. apply (H (S n)).
Qed.

Lemma aapplys_args : forall ts a a', a_bound a = false -> aapplys P a ts = Ok a' -> a_args a' = a_args a /\ a_bound a' = false.
Proof.
  intros ts a a' U H. assert (D : drops ts ts) by (clear; induction ts; constructor; auto).
  destruct (aapplys_like P _ _ D a a U) as [F _]; [repeat split|]. destruct (F _ H) as (b & E & _ & A & _ & B). auto.
Qed.

Definition fin (a1 : afiller) : outcome afiller :=
  if a_bound a1 then Raise already_bound else
  let s := if style_eqb (a_style a1) SDefault then dflt else a_style a1 in
  if style_eqb s SHollow && negb (match a_coercers a1 with [] => true | _ => false end)
  then Raise (mkexc ValueError "cannot have hollow type checking with coercers") else
  let a2 := AF (a_kind a1) (a_args a1) s (a_coercers a1) (a_validators a1) true in
  match a_kind a2 with
  | KLiteral lid vals =>
      Ok (if ahollow a2 then a2 else add_validator a2 (literal_validator P lid vals))
  | k => if style_eqb s SStrict && kind_abstract P k
         then Raise (mkexc TypeError "cannot create strict checker for abstract class")
         else Ok a2
  end.
Lemma abind_fin : forall a, abind P dflt a = do a1 <- aapplys P a (a_args a); fin a1.
Proof. reflexivity. Qed.

Lemma fin_like : forall a b a', like a b -> fin a = Ok a' -> exists b', fin b = Ok b' /\ like a' b'.
Proof.
  intros a b a' (K1 & K2 & K3 & K4 & K5) H. unfold fin in *. rewrite <- K1, <- K2, <- K3, <- K4, <- K5.
  destruct (a_bound a); [discriminate|]. cbv zeta in *. destruct (style_eqb _ SHollow && _); [discriminate|]. cbn [a_kind] in *.
  destruct (a_kind a); try (destruct (style_eqb _ SStrict && _); [discriminate|]; injection H as <-; eexists; split; [reflexivity|repeat split]).
  injection H as <-. eexists. split; [reflexivity|]. unfold ahollow. cbn. destruct (style_eqb _ SHollow); repeat split.
Qed.

Lemma leaf_all : forall k own pre, leaf k own pre = do a <- aapplys P (mk_afiller k own) (pre ++ own); fin a.
Proof.
  intros k own pre. unfold Hints_docs.leaf. rewrite aapplys_app. destruct (aapplys P (mk_afiller k own) pre) as [a|e] eqn:E; [|reflexivity].
  cbn [obind]. rewrite abind_fin. rewrite (proj1 (aapplys_args _ _ _ (eq_refl : a_bound (mk_afiller k own) = false) E)). reflexivity.
Qed.

Definition lsim (r r' : outcome afiller) : Prop := forall a, r = Ok a -> exists b, r' = Ok b /\ like a b.
Definition sim (r r' : outcome filler) : Prop := forall f, r = Ok f -> exists g, r' = Ok g /\ ext f g.

(** the tokens of a leaf are the added ones followed by its own *)
Lemma leaf_shift : forall k own pre own' pre', pre ++ own = pre' ++ own' -> lsim (leaf k own pre) (leaf k own' pre').
Proof.
  intros k own pre own' pre' E a H. rewrite leaf_all in *. rewrite <- E. apply obind_Ok in H. destruct H as (a1 & E1 & H).
  assert (D : forall ts : list token, drops ts ts) by (induction ts; constructor; auto).
  destruct (aapplys_like P _ _ (D (pre ++ own)) (mk_afiller k own) (mk_afiller k own') eq_refl) as [F _]; [repeat split|].
  destruct (F _ E1) as (b1 & -> & L & _). cbn [obind]. eapply fin_like; eassumption.
Qed.

(** ** Adding tokens to the parts of a container *)

Definition keys_ok (n : nat) (ops : list op) : Prop := forall i t, In (Some i, t) ops -> i < n.
Lemma keys_cons : forall n k t ops, keys_ok n ((k, t) :: ops) -> keys_ok n ops.
Proof. intros n k t ops H i u I. apply (H i u). right. exact I. Qed.

Lemma ops_none : forall ops, keys_ok 0 ops -> ops = own_only (own_ops ops).
Proof.
  induction ops as [|[[i|] t] r IH]; intros H; [reflexivity| |].
  - exfalso. specialize (H i t (or_introl eq_refl)). lia.
  - cbn. f_equal. apply IH. eapply keys_cons; eassumption.
Qed.

Lemma conv_tuplev : forall ops b a s a1 s1, keys_ok 1 ops -> aapplys P a (own_ops ops) = Ok a1 -> applys P s (sub_ops ops 0) = Ok s1 ->
  apply_ops P (FTupleV b a s) ops = Ok (FTupleV b a1 s1).
Proof.
  induction ops as [|[[i|] t] r IH]; intros b a s a1 s1 K HA HS.
  - cbn in *. congruence.
  - assert (i = 0) by (specialize (K i t (or_introl eq_refl)); lia). subst. cbn in HS. apply obind_Ok in HS as (s2 & E & HS).
    cbn. rewrite E. cbn. apply IH; auto. eapply keys_cons; eassumption.
  - cbn in HA. apply obind_Ok in HA as (a2 & E & HA). cbn. rewrite E. cbn. apply IH; auto. eapply keys_cons; eassumption.
Qed.
Lemma conv_iter : forall ops rk b a s a1 s1, keys_ok 1 ops -> aapplys P a (own_ops ops) = Ok a1 -> applys P s (sub_ops ops 0) = Ok s1 ->
  apply_ops P (FIter rk b a s) ops = Ok (FIter rk b a1 s1).
Proof.
  induction ops as [|[[i|] t] r IH]; intros rk b a s a1 s1 K HA HS.
  - cbn in *. congruence.
  - assert (i = 0) by (specialize (K i t (or_introl eq_refl)); lia). subst. cbn in HS. apply obind_Ok in HS as (s2 & E & HS).
    cbn. rewrite E. cbn. apply IH; auto. eapply keys_cons; eassumption.
  - cbn in HA. apply obind_Ok in HA as (a2 & E & HA). cbn. rewrite E. cbn. apply IH; auto. eapply keys_cons; eassumption.
Qed.
Lemma conv_map : forall ops rk b a s u a1 s1 u1, keys_ok 2 ops -> aapplys P a (own_ops ops) = Ok a1 -> applys P s (sub_ops ops 0) = Ok s1 -> applys P u (sub_ops ops 1) = Ok u1 ->
  apply_ops P (FMap rk b a s u) ops = Ok (FMap rk b a1 s1 u1).
Proof.
  induction ops as [|[[i|] t] r IH]; intros rk b a s u a1 s1 u1 K HA HS HU.
  - cbn in *. congruence.
  - assert (i = 0 \/ i = 1) as [-> | ->] by (specialize (K i t (or_introl eq_refl)); lia).
    + cbn in HS. apply obind_Ok in HS as (s2 & E & HS). cbn. rewrite E. cbn. apply IH; auto. eapply keys_cons; eassumption.
    + cbn in HU. apply obind_Ok in HU as (s2 & E & HU). cbn. rewrite E. cbn. apply IH; auto. eapply keys_cons; eassumption.
  - cbn in HA. apply obind_Ok in HA as (a2 & E & HA). cbn. rewrite E. cbn. apply IH; auto. eapply keys_cons; eassumption.
Qed.
Lemma conv_simple : forall ops (mkf : afiller -> filler) a a1, (forall a t, apply P (mkf a) t = do a' <- aapply P a t; Ok (mkf a')) ->
  keys_ok 0 ops -> aapplys P a (own_ops ops) = Ok a1 -> apply_ops P (mkf a) ops = Ok (mkf a1).
Proof.
  intros ops mkf a a1 HM. revert a. induction ops as [|[[i|] t] r IH]; intros a K HA.
  - cbn in *. congruence.
  - exfalso. specialize (K i t (or_introl eq_refl)). lia.
  - cbn in HA. apply obind_Ok in HA as (a2 & E & HA). cbn. rewrite HM, E. cbn. apply IH; auto. eapply keys_cons; eassumption.
Qed.

Lemma update_conv : forall n g (l : list filler) s s', nth_error l n = Some s -> g s = Ok s' ->
  exists l', update_nth n g l = Ok l' /\ List.length l' = List.length l /\
    forall m u, nth_error l' m = Some u -> if Nat.eqb m n then u = s' else nth_error l m = Some u.
Proof.
  induction n as [|n IH]; intros g [|f r] s s' E G; try discriminate; cbn in *.
  - injection E as ->. rewrite G. cbn. eexists. split; [reflexivity|]. split; [reflexivity|]. intros [|m] u; cbn; congruence.
  - destruct (IH g r s s' E G) as (l' & -> & L & N). cbn. eexists. split; [reflexivity|]. split; [cbn; congruence|].
    intros [|m] u; cbn; [congruence|]. apply N.
Qed.

Lemma nth_some : forall {A B} (l : list A) (m : list B) n a, List.length l = List.length m -> nth_error l n = Some a -> exists b, nth_error m n = Some b.
Proof.
  intros A B l m n a L E. assert (n < List.length l) by (apply nth_error_Some; congruence).
  destruct (nth_error m n) eqn:F; [eauto|]. apply nth_error_None in F. lia.
Qed.

Lemma after_update : forall n t ops subs subs1, keys_ok (List.length subs) ((Some n, t) :: ops) -> subs_after P ((Some n, t) :: ops) subs subs1 ->
  exists subs', update_nth n (fun sf => apply P sf t) subs = Ok subs' /\ List.length subs' = List.length subs /\ subs_after P ops subs' subs1.
Proof.
  intros n t ops subs subs1 K [L HS]. assert (N : n < List.length subs) by (apply (K n t); left; reflexivity).
  destruct (nth_error subs n) as [s|] eqn:E; [|apply nth_error_None in E; lia].
  destruct (HS _ _ E) as (s1 & E1 & A). unfold sub_ops in A. cbn in A. rewrite Nat.eqb_refl in A. cbn in A. apply obind_Ok in A as (s' & G & A).
  destruct (update_conv n (fun sf => apply P sf t) subs s s' E G) as (l' & U & L' & NU). exists l'. split; [exact U|]. split; [exact L'|].
  split; [congruence|]. intros m u Eu. specialize (NU _ _ Eu). destruct (Nat.eqb_spec m n) as [->|Hn].
  - subst u. exists s1. auto.
  - destruct (HS _ _ NU) as (u1 & E2 & A2). exists u1. split; [exact E2|]. unfold sub_ops in A2. cbn in A2.
    destruct (Nat.eqb_spec m n); [contradiction|]. exact A2.
Qed.

Lemma conv_tuplen : forall ops b a subs a1 subs1, keys_ok (List.length subs) ops -> aapplys P a (own_ops ops) = Ok a1 -> subs_after P ops subs subs1 ->
  apply_ops P (FTupleN b a subs) ops = Ok (FTupleN b a1 subs1).
Proof.
  induction ops as [|[[i|] t] r IH]; intros b a subs a1 subs1 K HA HS.
  - cbn in *. injection HA as ->. destruct HS as [L HS]. do 2 f_equal.
    apply nth_ext_eq. intros n. destruct (nth_error subs n) as [s|] eqn:E.
    + destruct (HS _ _ E) as (s1 & -> & H). cbn in H. congruence.
    + symmetry. apply nth_error_None. rewrite L. apply nth_error_None. exact E.
  - destruct (after_update _ _ _ _ _ K HS) as (subs' & U & L & HS'). cbn. rewrite U. cbn. apply IH; auto. rewrite L. eapply keys_cons; eassumption.
  - cbn in HA. apply obind_Ok in HA as (a2 & E & HA). cbn. rewrite E. cbn. apply IH; auto. eapply keys_cons; eassumption.
Qed.
Lemma conv_union : forall ops args ap subs subs1, keys_ok (List.length subs) ops -> subs_after P ops subs subs1 ->
  apply_ops P (FUnion args ap subs false) ops = Ok (FUnion args (ap ++ own_ops ops) subs1 false).
Proof.
  induction ops as [|[[i|] t] r IH]; intros args ap subs subs1 K HS.
  - cbn in *. rewrite app_nil_r. destruct HS as [L HS]. do 2 f_equal.
    apply nth_ext_eq. intros n. destruct (nth_error subs n) as [s|] eqn:E.
    + destruct (HS _ _ E) as (s1 & -> & H). cbn in H. congruence.
    + symmetry. apply nth_error_None. rewrite L. apply nth_error_None. exact E.
  - destruct (after_update _ _ _ _ _ K HS) as (subs' & U & L & HS'). cbn. rewrite U. cbn. apply IH; auto. rewrite L. eapply keys_cons; eassumption.
  - cbn. rewrite IH with (subs1 := subs1); auto; [|eapply keys_cons; eassumption]. rewrite <- app_assoc. reflexivity.
Qed.

Definition eqv (r r' : outcome filler) : Prop := sim r r' /\ sim r' r.
Lemma ext_refl : forall f, ext f f.
Proof. intros f. split; reflexivity. Qed.
Lemma sim_refl : forall r, sim r r.
Proof. intros r f ->. eexists. split; [reflexivity|]. apply ext_refl. Qed.
Lemma eqv_refl : forall r, eqv r r.
Proof. intros r. split; apply sim_refl. Qed.
Lemma lsim_sym : forall k own pre own' pre', pre ++ own = pre' ++ own' -> lsim (leaf k own' pre') (leaf k own pre).
Proof. intros. apply leaf_shift. congruence. Qed.

Definition not_ann (h : hint) : bool := match h with HAnn _ _ => false | _ => true end.

Lemma exts_refl : forall l, Forall2 ext l l.
Proof. induction l; constructor; [apply ext_refl|assumption]. Qed.

Lemma made_type : forall o p base f, made o p (HType base) = Ok f <-> exists a, leaf (KSimple (t_type P)) o p = Ok a /\
    f = FType true (if ahollow a then a else add_validator a (type_validator P base)) base.
Proof.
  intros o p base f. unfold Hints_docs.made, Hints_docs.leaf. cbn [gaf obind bind_with]. split.
  - intros H. apply obind_Ok in H as (a & E & H). rewrite E. cbn [obind]. apply obind_Ok in H as (a2 & E2 & H). injection H as <-. eauto.
  - intros (a & H & ->). destruct (aapplys P _ p) as [a0|]; [|discriminate]. cbn [obind] in *. rewrite H. reflexivity.
Qed.

Lemma made_leaf_iff : forall k h own pre f, (forall o, gaf P o h = Ok (FAnn (mk_afiller k o))) ->
  made own pre h = Ok f <-> exists a, leaf k own pre = Ok a /\ f = FAnn a.
Proof.
  intros k h own pre f G. unfold Hints_docs.made, Hints_docs.leaf. rewrite G. cbn [obind bind_with]. split.
  - intros H. apply obind_Ok in H as (a & E & H). apply obind_Ok in H as (a2 & E2 & H). injection H as <-. rewrite E. cbn [obind]. eauto.
  - intros (a & H & ->). apply obind_Ok in H as (a1 & E & H). rewrite E. cbn [obind]. rewrite H. reflexivity.
Qed.

(** only the tokens added and annotated, in this order, matter *)
Lemma made_shift : forall h own ts own' ts', not_ann h = true -> is_union h = false -> ts ++ own = ts' ++ own' ->
  sim (made own ts h) (made own' ts' h).
Proof.
  assert (LF : forall k h, (forall o, gaf P o h = Ok (FAnn (mk_afiller k o))) -> forall own ts own' ts', ts ++ own = ts' ++ own' ->
    sim (made own ts h) (made own' ts' h)).
  { intros k h G own ts own' ts' E f H. apply (made_leaf_iff k) in H as (a & H & ->); [|assumption]. destruct (leaf_shift _ _ _ _ _ E _ H) as (b & H' & L).
    exists (FAnn b). split; [apply (made_leaf_iff k); eauto|]. eapply ext_leafs; try reflexivity. assumption. }
  induction h as [t0| | | |h IH|hs IH|lid vals|base|hs IH|h IH|rk t0 h IH|rk t0 hk hv IHk IHv|t0 hs IH|t0| |h toks IH]
    using hint_ind'; intros own ts own' ts' NA NU E; try discriminate; try (eapply LF; [reflexivity|assumption]).
  - cbn in NU. destruct h; try (apply (IH own ts own' ts' eq_refl NU E)).
    intros f H. unfold Hints_docs.made in *. cbn in *. destruct own; [|discriminate]. cbn in H. destruct ts; [|discriminate]. cbn in E.
    symmetry in E. apply app_eq_nil in E as [-> ->]. exists f. split; [exact H|apply ext_refl].
  - intros f H. apply made_type in H as (a & H & ->). destruct (leaf_shift _ _ _ _ _ E _ H) as (b & H' & L).
    eexists. split; [apply made_type; eauto|]. eapply ext_leafs; try reflexivity. rewrite <- (like_hollow _ _ L). destruct (ahollow a); [assumption|].
    apply like_add. assumption.
  - intros f H. apply made_tuple_n in H as (a & ss & H & HS & HW). destruct (leaf_shift _ _ _ _ _ E _ H) as (b & H' & L).
    destruct (wrap_tuple_n_ext _ _ _ _ _ _ L (exts_refl ss) HW) as (g & Eg & X). exists g. split; [|exact X]. apply made_tuple_n. eauto.
  - intros f H. apply made_tuple_v in H as (a & ss & H & HS & HW). destruct (leaf_shift _ _ _ _ _ E _ H) as (b & H' & L).
    destruct (wrap_tuple_v_ext _ _ _ _ _ _ L (ext_refl ss) HW) as (g & Eg & X). exists g. split; [|exact X]. apply made_tuple_v. eauto.
  - intros f H. apply made_iter in H as (a & ss & H & HS & HW). destruct (leaf_shift _ _ _ _ _ E _ H) as (b & H' & L).
    destruct (wrap_iter_ext _ _ _ _ _ _ _ L (ext_refl ss) HW) as (g & Eg & X). exists g. split; [|exact X]. apply made_iter. eauto.
  - intros f H. apply made_map in H as (a & ss & uu & H & HS & HU & HW). destruct (leaf_shift _ _ _ _ _ E _ H) as (b & H' & L).
    destruct (wrap_map_ext _ _ _ _ _ _ _ _ _ L (ext_refl ss) (ext_refl uu) HW) as (g & Eg & X). exists g. split; [|exact X]. apply made_map. eauto 8.
  - intros f H. apply made_gen in H as (a & ss & H & HS & HW). destruct (leaf_shift _ _ _ _ _ E _ H) as (b & H' & L).
    destruct (wrap_gen_ext _ _ _ _ _ _ L (exts_refl ss) HW) as (g & Eg & X). exists g. split; [|exact X]. apply made_gen. eauto.
  - intros f H. apply made_other in H as (-> & -> & E1 & ->). symmetry in E. apply app_eq_nil in E as [-> ->].
    exists (FDumb true). split; [apply made_other; auto|apply ext_refl].
Qed.

Lemma made_first : forall h own ts, is_union h = false -> eqv (made own ts h) (made own [] (write_first ts h)).
Proof.
  induction h as [t0| | | |h IH|hs IH|lid vals|base|hs IH|h IH|rk t0 h IH|rk t0 hk hv IHk IHv|t0 hs IH|t0| |h toks IH]
    using hint_ind'; intros own ts NU; try discriminate NU;
    try match goal with |- eqv _ (made _ _ (write_first _ ?h)) => split; [exact (made_shift h own ts (ts ++ own) [] eq_refl NU eq_refl) | exact (made_shift h (ts ++ own) [] own ts eq_refl NU eq_refl)] end.
  apply (IH (toks ++ own) ts NU).
Qed.

Lemma gaf_first_nil : forall (h : hint) own, gaf P own (write_first [] h) = gaf P own h.
Proof. induction h using hint_ind'; intros own; try reflexivity. cbn. apply IHh. Qed.

Lemma part_first : forall h ts, is_union h = false \/ ts = [] -> eqv (made [] ts h) (made [] [] (write_first ts h)).
Proof.
  intros h ts [NU| ->]; [apply made_first; exact NU|]. unfold Hints_docs.made. rewrite gaf_first_nil. apply eqv_refl.
Qed.

Ltac fix_nil := repeat match goal with E : aapplys P _ [] = Ok _ |- _ => cbn in E; injection E as E; subst end.

(** ** The field with all that was added to it and its parts *)
Definition madeo (own : list token) (ops : list op) (h : hint) : outcome filler :=
  do f <- gaf P own h; do f1 <- apply_ops P f ops; bind_with P dflt [] f1.

Lemma part_iff : forall h ts s, made [] ts h = Ok s <-> exists f s1, gaf P [] h = Ok f /\ applys P f ts = Ok s1 /\ bind_with P dflt [] s1 = Ok s.
Proof.
  intros h ts s. unfold Hints_docs.made. split.
  - intros H. apply obind_Ok in H as (f & E & H). apply bind_with_applys_conv in H as (s1 & A & H). eauto.
  - intros (f & s1 & -> & A & H). cbn. rewrite (bind_with_applys P _ _ _ _ _ A), app_nil_r in H. exact H.
Qed.

Lemma choose : forall {A B} (R : nat -> A -> B -> Prop) (l : list A), (forall n a, nth_error l n = Some a -> exists b, R n a b) ->
  exists m, List.length m = List.length l /\ forall n a, nth_error l n = Some a -> exists b, nth_error m n = Some b /\ R n a b.
Proof.
  intros A B R l. revert R. induction l as [|a r IH]; intros R H.
  - exists []. split; [reflexivity|]. intros [|n] a; discriminate.
  - destruct (H 0 a eq_refl) as (b & Rb). destruct (IH (fun n => R (S n)) (fun n a' E => H (S n) a' E)) as (m & L & Hm).
    exists (b :: m). split; [cbn; congruence|]. intros [|n] a' E; cbn in *; [injection E as <-; eauto|]. apply Hm. exact E.
Qed.

Lemma mapO_nths : forall {A B} (f : A -> outcome B) l m, mapO f l = Ok m <->
  List.length m = List.length l /\ forall n a, nth_error l n = Some a -> exists b, nth_error m n = Some b /\ f a = Ok b.
Proof.
  intros A B f. induction l as [|a r IH]; intros m; cbn.
  - split; [intros [= <-]; split; [reflexivity|]; intros [|n] a; discriminate|]. intros [L _]. destruct m; [reflexivity|discriminate].
  - split.
    + intros H. apply obind_Ok in H as (b & Fb & H). apply obind_Ok in H as (m' & Fm & H). injection H as <-. apply IH in Fm as [L N].
      split; [cbn; congruence|]. intros [|n] a' E; cbn in *; [injection E as <-; eauto|apply N; exact E].
    + intros [L N]. destruct m as [|b m]; [discriminate|]. destruct (N 0 a eq_refl) as (b' & [= <-] & ->). cbn.
      rewrite (proj2 (IH m)); [reflexivity|]. split; [cbn in L; congruence|]. intros n a' E. apply (N (S n) a' E).
Qed.

Definition parts_made (ops : list op) (u : list token) (hs : list hint) (ss : list filler) : Prop :=
  List.length ss = List.length hs /\
  forall n h, nth_error hs n = Some h -> exists s, nth_error ss n = Some s /\ made [] (sub_ops ops n ++ u) h = Ok s.

Lemma parts_iff : forall ops u hs ss, parts_made ops u hs ss <->
  exists subs subs1, mapO (gaf P []) hs = Ok subs /\ subs_after P ops subs subs1 /\ mapO (bind_with P dflt u) subs1 = Ok ss.
Proof.
  intros ops u hs ss. split.
  - intros [L H]. destruct (choose (fun n h s => gaf P [] h = Ok s) hs) as (subs & L1 & N1).
    { intros n h E. destruct (H _ _ E) as (s & _ & M). unfold Hints_docs.made in M. apply obind_Ok in M as (f & G & _). eauto. }
    destruct (choose (fun n s s1 => applys P s (sub_ops ops n) = Ok s1) subs) as (subs1 & L2 & N2).
    { intros n s E. destruct (nth_some subs hs n s L1 E) as (h & Eh). destruct (N1 _ _ Eh) as (s' & Es & G).
      destruct (H _ _ Eh) as (r & _ & M). unfold Hints_docs.made in M. rewrite G in M. cbn in M. assert (s' = s) by congruence. subst s'.
      apply bind_with_applys_conv in M as (s1 & A & _). rewrite applys_app in A. destruct (applys P s (sub_ops ops n)); [eauto|discriminate]. }
    exists subs, subs1. split; [apply mapO_nths; auto|]. split; [split; assumption|]. apply mapO_nths. split; [congruence|].
    intros n s1 E1. destruct (nth_some subs1 subs n s1 L2 E1) as (s & Es). destruct (nth_some subs hs n s L1 Es) as (h & Eh).
    destruct (N1 _ _ Eh) as (s' & Es' & G). assert (s' = s) by congruence. subst s'. destruct (N2 _ _ Es) as (s1' & Es1 & A). assert (s1' = s1) by congruence. subst s1'.
    destruct (H _ _ Eh) as (r & Er & M). exists r. split; [exact Er|]. unfold Hints_docs.made in M. rewrite G in M. cbn in M.
    rewrite (bind_with_applys P _ _ _ _ _ A). exact M.
  - intros (subs & subs1 & G & [L2 N2] & B). apply mapO_nths in G as [L1 N1]. apply mapO_nths in B as [L3 N3]. split; [congruence|].
    intros n h Eh. destruct (N1 _ _ Eh) as (s & Es & G). destruct (N2 _ _ Es) as (s1 & Es1 & A). destruct (N3 _ _ Es1) as (r & Er & B).
    exists r. split; [exact Er|]. unfold Hints_docs.made. rewrite G. cbn. rewrite <- (bind_with_applys P _ _ _ _ _ A). exact B.
Qed.

Lemma madeo_tuple_v : forall own ops h f, keys_ok 1 ops -> madeo own ops (HTupleV h) = Ok f <->
  exists a s, leaf (KSimple (t_tuple P)) own (own_ops ops) = Ok a /\ made [] (sub_ops ops 0) h = Ok s /\ wrap_tuple_v P a s = Ok f.
Proof.
  intros own ops h f K. unfold madeo, Hints_docs.leaf, wrap_tuple_v. cbn [gaf]. split.
  - intros H. crush. apply ops_tuplev in E0 as (a2 & s1 & -> & HA & HS). cbn [bind_with] in H. crush. fix_nil.
    do 2 eexists. rewrite HA. split; [eassumption|]. split; [apply part_iff; eauto|]. assumption.
  - intros (a & s & HL & HM & HW). crush. apply part_iff in HM as (f0 & s1 & G & A & B). rewrite G. cbn [obind].
    rewrite (conv_tuplev _ _ _ _ _ _ K E A). cbn [obind bind_with aapplys]. rewrite HL. cbn [obind]. rewrite B. exact HW.
Qed.
Lemma madeo_iter : forall own ops rk t h f, keys_ok 1 ops -> madeo own ops (HIter rk t h) = Ok f <->
  exists a s, leaf (KSimple t) own (own_ops ops) = Ok a /\ made [] (sub_ops ops 0) h = Ok s /\ wrap_iter P rk a s = Ok f.
Proof.
  intros own ops rk t h f K. unfold madeo, Hints_docs.leaf, wrap_iter. cbn [gaf]. split.
  - intros H. crush. apply ops_iter in E0 as (a2 & s1 & -> & HA & HS). cbn [bind_with] in H. crush. fix_nil.
    do 2 eexists. rewrite HA. split; [eassumption|]. split; [apply part_iff; eauto|]. assumption.
  - intros (a & s & HL & HM & HW). crush. apply part_iff in HM as (f0 & s1 & G & A & B). rewrite G. cbn [obind].
    rewrite (conv_iter _ _ _ _ _ _ _ K E A). cbn [obind bind_with aapplys]. rewrite HL. cbn [obind]. rewrite B. exact HW.
Qed.
Lemma madeo_map : forall own ops rk t hk hv f, keys_ok 2 ops -> madeo own ops (HMap rk t hk hv) = Ok f <->
  exists a s x, leaf (KSimple t) own (own_ops ops) = Ok a /\ made [] (sub_ops ops 0) hk = Ok s /\ made [] (sub_ops ops 1) hv = Ok x /\ wrap_map P rk a s x = Ok f.
Proof.
  intros own ops rk t hk hv f K. unfold madeo, Hints_docs.leaf, wrap_map. cbn [gaf]. split.
  - intros H. crush. apply ops_map in E0 as (b1 & s1 & s2 & -> & HA & HS & HS2). cbn [bind_with] in H. crush. fix_nil.
    do 3 eexists. rewrite HA. split; [eassumption|]. split; [apply part_iff; eauto|]. split; [apply part_iff; eauto|]. assumption.
  - intros (a & s & x & HL & HM & HX & HW). crush. apply part_iff in HM as (f0 & s1 & G & A & B). apply part_iff in HX as (f1 & s2 & G2 & A2 & B2).
    rewrite G. cbn [obind]. rewrite G2. cbn [obind].
    rewrite (conv_map _ _ _ _ _ _ _ _ _ K E A A2). cbn [obind bind_with aapplys]. rewrite HL. cbn [obind]. rewrite B. cbn [obind]. rewrite B2. exact HW.
Qed.
Lemma madeo_tuple_n : forall own ops hs f, keys_ok (List.length hs) ops -> madeo own ops (HTupleN hs) = Ok f <->
  exists a ss, leaf (KSimple (t_tuple P)) own (own_ops ops) = Ok a /\ parts_made ops [] hs ss /\ wrap_tuple_n P a ss = Ok f.
Proof.
  intros own ops hs f K. unfold madeo, Hints_docs.leaf, wrap_tuple_n. cbn [gaf]. split.
  - intros H. crush. apply ops_tuplen in E0 as (a2 & s1 & -> & HA & HS). cbn [bind_with] in H. crush. fix_nil.
    do 2 eexists. rewrite HA. split; [eassumption|]. split; [apply parts_iff; eauto|].
    match goal with E : mapO (bind_with P dflt []) _ = Ok _ |- _ => rewrite (mapO_length _ _ _ E) end. assumption.
  - intros (a & ss & HL & HM & HW). crush. apply parts_iff in HM as (subs & subs1 & G & A & B). rewrite G. cbn [obind].
    assert (K' : keys_ok (List.length subs) ops) by (rewrite (mapO_length _ _ _ G); exact K).
    rewrite (conv_tuplen _ _ _ _ _ _ K' E A). cbn [obind bind_with aapplys]. rewrite HL. cbn [obind]. rewrite B. cbn [obind].
    rewrite <- (mapO_length _ _ _ B). exact HW.
Qed.
Lemma madeo_union : forall own ops hs f, keys_ok (List.length hs) ops -> madeo own ops (HUnion hs) = Ok f <->
  exists ss, parts_made ops (own ++ own_ops ops) hs ss /\ f = FUnion own (own_ops ops) ss true.
Proof.
  intros own ops hs f K. unfold madeo. cbn [gaf]. split.
  - intros H. crush. apply ops_union in E0 as (s1 & -> & HS). cbn [bind_with] in H. crush. rewrite app_nil_r in *. cbn [app] in *.
    exists a. split; [apply parts_iff; eauto|reflexivity].
  - intros (ss & HM & ->). apply parts_iff in HM as (subs & subs1 & G & A & B). rewrite G. cbn [obind].
    assert (K' : keys_ok (List.length subs) ops) by (rewrite (mapO_length _ _ _ G); exact K).
    rewrite (conv_union _ _ _ _ _ K' A). cbn [obind bind_with app]. rewrite app_nil_r, B. reflexivity.
Qed.
Lemma madeo_none : forall own ops h f, keys_ok 0 ops -> madeo own ops h = Ok f <-> made own (own_ops ops) h = Ok f.
Proof.
  intros own ops h f K. unfold madeo, Hints_docs.made. 
  assert (EO : forall g, apply_ops P g ops = applys P g (own_ops ops)).
  { intros g. transitivity (apply_ops P g (own_only (own_ops ops))); [f_equal; apply ops_none; exact K|apply apply_ops_own_only]. }
  split.
  - intros H. crush. rewrite EO in E0. cbn [obind]. rewrite E. cbn [obind]. rewrite (bind_with_applys P _ _ _ _ _ E0), app_nil_r in H. exact H.
  - intros H. apply obind_Ok in H as (g & -> & H). cbn [obind]. rewrite EO. apply bind_with_applys_conv in H as (f1 & -> & H). exact H.
Qed.

Lemma nth_map_i : forall {A B} (f : nat -> A -> B) l i n a, nth_error l n = Some a -> nth_error (map_i f i l) n = Some (f (i + n) a).
Proof.
  intros A B f. induction l as [|b r IH]; intros i [|n] a E; try discriminate; cbn in *.
  - injection E as ->. rewrite Nat.add_0_r. reflexivity.
  - rewrite (IH (S i) n a E). do 2 f_equal. lia.
Qed.
Lemma map_i_length : forall {A B} (f : nat -> A -> B) l i, List.length (map_i f i l) = List.length l.
Proof. intros A B f. induction l; intros i; cbn; auto. Qed.

Definition parts_like (ops : list op) (f : nat -> hint -> hint) (hs : list hint) : Prop :=
  forall n h, nth_error hs n = Some h -> eqv (made [] (sub_ops ops n) h) (made [] [] (f n h)).

Lemma exts_nth : forall (ss xs : list filler), List.length ss = List.length xs ->
  (forall n s x, nth_error ss n = Some s -> nth_error xs n = Some x -> ext s x) -> Forall2 ext ss xs.
Proof.
  induction ss as [|s ss IH]; intros [|x xs] L H; try discriminate; constructor; [apply (H 0); reflexivity|].
  apply IH; [cbn in L; congruence|]. intros n. apply (H (S n)).
Qed.

Lemma parts_to : forall ops f hs ss, parts_like ops f hs -> parts_made ops [] hs ss ->
  exists xs, mapO (made [] []) (map_i f 0 hs) = Ok xs /\ Forall2 ext ss xs.
Proof.
  intros ops f hs ss PL [L N].
  destruct (choose (fun n h x => made [] [] (f n h) = Ok x /\ forall s, nth_error ss n = Some s -> ext s x) hs) as (xs & LX & NX).
  { intros n h E. destruct (N _ _ E) as (s & Es & M). rewrite app_nil_r in M. destruct (proj1 (PL _ _ E) _ M) as (x & Ex & X). exists x. split; [exact Ex|].
    intros s' Es'. congruence. }
  exists xs. split.
  - apply mapO_nths. rewrite map_i_length. split; [exact LX|]. intros n h' E.
    destruct (nth_some _ hs n h' (map_i_length f hs 0) E) as (h & Eh). rewrite (nth_map_i f hs 0 n h Eh) in E. injection E as <-.
    destruct (NX _ _ Eh) as (x & Ex & M & _). eauto.
  - apply exts_nth; [congruence|]. intros n s x Es Ex. destruct (nth_some ss hs n s L Es) as (h & Eh).
    destruct (NX _ _ Eh) as (x' & Ex' & _ & X). assert (x' = x) by congruence. subst. auto.
Qed.
Lemma parts_from : forall ops f hs xs, parts_like ops f hs -> mapO (made [] []) (map_i f 0 hs) = Ok xs ->
  exists ss, parts_made ops [] hs ss /\ Forall2 ext xs ss.
Proof.
  intros ops f hs xs PL H. apply mapO_nths in H as [L N]. rewrite map_i_length in L.
  destruct (choose (fun n h s => made [] (sub_ops ops n ++ []) h = Ok s /\ forall x, nth_error xs n = Some x -> ext x s) hs) as (ss & LS & NS).
  { intros n h E. destruct (N n _ (nth_map_i f hs 0 n h E)) as (x & Ex & M). destruct (proj2 (PL _ _ E) _ M) as (s & Es & X). exists s. rewrite app_nil_r. split; [exact Es|].
    intros x' Ex'. congruence. }
  exists ss. split.
  - split; [exact LS|]. intros n h E. destruct (NS _ _ E) as (s & Es & M & _). eauto.
  - apply exts_nth; [congruence|]. intros n x s Ex Es. destruct (nth_some ss hs n s LS Es) as (h & Eh).
    destruct (NS _ _ Eh) as (s' & Es' & _ & X). assert (s' = s) by congruence. subst. auto.
Qed.

Lemma on_parts_ann : forall f (h : hint), not_ann (on_parts f h) = not_ann h.
Proof. intros f []; reflexivity. Qed.

Lemma madeo_parts : forall h own ops f, not_ann h = true -> is_union h = false -> keys_ok (List.length (parts h)) ops -> parts_like ops f (parts h) ->
  eqv (madeo own ops h) (made (own_ops ops ++ own) [] (on_parts f h)).
Proof.
  assert (LF : forall h own ops, parts h = [] -> keys_ok (List.length (parts h)) ops -> not_ann h = true -> is_union h = false ->
    eqv (madeo own ops h) (made (own_ops ops ++ own) [] h)).
  { intros h own ops PN K NA NU. rewrite PN in K. cbn in K.
    assert (E : forall ts : list token, own_ops ops ++ own = [] ++ own_ops ops ++ own) by reflexivity. split.
    - intros g H. apply (madeo_none _ _ _ _ K) in H. apply (made_shift h own (own_ops ops) (own_ops ops ++ own) [] NA NU eq_refl _ H).
    - intros g H. destruct (made_shift h (own_ops ops ++ own) [] own (own_ops ops) NA NU eq_refl _ H) as (g' & H' & X).
      exists g'. split; [apply (madeo_none _ _ _ _ K); exact H'|exact X]. }
  induction h as [t0| | | |h IH|hs IH|lid vals|base|hs IH|h IH|rk t0 h IH|rk t0 hk hv IHk IHv|t0 hs IH|t0| |h toks IH]
    using hint_ind'; intros own ops f NA NU K PL; try discriminate;
    try (apply LF; auto; fail).
  - destruct (not_ann h) eqn:NH.
    + assert (E1 : forall o p, madeo o p (HNewType h) = madeo o p h) by (intros; destruct h; reflexivity || discriminate).
      assert (E2 : forall o p, made o p (on_parts f (HNewType h)) = made o p (on_parts f h)).
      { intros o p. cbn [on_parts]. unfold Hints_docs.made. pose proof (on_parts_ann f h) as E. rewrite NH in E. destruct (on_parts f h); reflexivity || discriminate. }
      rewrite E1, E2. apply IH; auto; destruct h; auto; discriminate.
    + assert (E : forall o p, made o p (on_parts f (HNewType h)) = made o p (HNewType h)).
      { intros o p. destruct h; try discriminate. reflexivity. }
      rewrite E. apply LF; auto. destruct h; try discriminate. reflexivity.
  - split.
    + intros g H. apply madeo_tuple_n in H as (a & ss & H & HS & HW); [|exact K]. destruct (parts_to _ _ _ _ PL HS) as (xs & EX & X).
      destruct (leaf_shift (KSimple (t_tuple P)) own (own_ops ops) (own_ops ops ++ own) [] eq_refl _ H) as (b & H' & L).
      destruct (wrap_tuple_n_ext _ _ _ _ _ _ L X HW) as (g' & Eg & XX). exists g'. split; [|exact XX]. apply made_tuple_n. eauto.
    + intros g H. apply made_tuple_n in H as (a & ss & H & HS & HW). destruct (parts_from _ _ _ _ PL HS) as (xs & EX & X).
      destruct (leaf_shift (KSimple (t_tuple P)) (own_ops ops ++ own) [] own (own_ops ops) eq_refl _ H) as (b & H' & L).
      destruct (wrap_tuple_n_ext _ _ _ _ _ _ L X HW) as (g' & Eg & XX). exists g'. split; [|exact XX]. apply madeo_tuple_n; eauto.
  - destruct (PL 0 h eq_refl) as [P1 P2]. split.
    + intros g H. apply madeo_tuple_v in H as (a & ss & H & HS & HW); [|exact K]. destruct (P1 _ HS) as (xs & EX & X).
      destruct (leaf_shift (KSimple (t_tuple P)) own (own_ops ops) (own_ops ops ++ own) [] eq_refl _ H) as (b & H' & L).
      destruct (wrap_tuple_v_ext _ _ _ _ _ _ L X HW) as (g' & Eg & XX). exists g'. split; [|exact XX]. apply made_tuple_v. eauto.
    + intros g H. apply made_tuple_v in H as (a & ss & H & HS & HW). destruct (P2 _ HS) as (xs & EX & X).
      destruct (leaf_shift (KSimple (t_tuple P)) (own_ops ops ++ own) [] own (own_ops ops) eq_refl _ H) as (b & H' & L).
      destruct (wrap_tuple_v_ext _ _ _ _ _ _ L X HW) as (g' & Eg & XX). exists g'. split; [|exact XX]. apply madeo_tuple_v; eauto.
  - destruct (PL 0 h eq_refl) as [P1 P2]. split.
    + intros g H. apply madeo_iter in H as (a & ss & H & HS & HW); [|exact K]. destruct (P1 _ HS) as (xs & EX & X).
      destruct (leaf_shift (KSimple t0) own (own_ops ops) (own_ops ops ++ own) [] eq_refl _ H) as (b & H' & L).
      destruct (wrap_iter_ext _ _ _ _ _ _ _ L X HW) as (g' & Eg & XX). exists g'. split; [|exact XX]. apply made_iter. eauto.
    + intros g H. apply made_iter in H as (a & ss & H & HS & HW). destruct (P2 _ HS) as (xs & EX & X).
      destruct (leaf_shift (KSimple t0) (own_ops ops ++ own) [] own (own_ops ops) eq_refl _ H) as (b & H' & L).
      destruct (wrap_iter_ext _ _ _ _ _ _ _ L X HW) as (g' & Eg & XX). exists g'. split; [|exact XX]. apply madeo_iter; eauto.
  - destruct (PL 0 hk eq_refl) as [P1 P2]. destruct (PL 1 hv eq_refl) as [Q1 Q2]. split.
    + intros g H. apply madeo_map in H as (a & ss & vs & H & HS & HV & HW); [|exact K]. destruct (P1 _ HS) as (xs & EX & X). destruct (Q1 _ HV) as (ys & EY & Y).
      destruct (leaf_shift (KSimple t0) own (own_ops ops) (own_ops ops ++ own) [] eq_refl _ H) as (b & H' & L).
      destruct (wrap_map_ext _ _ _ _ _ _ _ _ _ L X Y HW) as (g' & Eg & XX). exists g'. split; [|exact XX]. apply made_map. eauto 8.
    + intros g H. apply made_map in H as (a & ss & vs & H & HS & HV & HW). destruct (P2 _ HS) as (xs & EX & X). destruct (Q2 _ HV) as (ys & EY & Y).
      destruct (leaf_shift (KSimple t0) (own_ops ops ++ own) [] own (own_ops ops) eq_refl _ H) as (b & H' & L).
      destruct (wrap_map_ext _ _ _ _ _ _ _ _ _ L X Y HW) as (g' & Eg & XX). exists g'. split; [|exact XX]. apply madeo_map; eauto 8.
Qed.

Lemma madeo_written : forall h own ops f, is_union h = false -> keys_ok (List.length (parts h)) ops -> parts_like ops f (parts h) ->
  eqv (madeo own ops h) (made own [] (write_first (own_ops ops) (on_parts f h))).
Proof.
  induction h as [t0| | | |h IH|hs IH|lid vals|base|hs IH|h IH|rk t0 h IH|rk t0 hk hv IHk IHv|t0 hs IH|t0| |h toks IH]
    using hint_ind'; intros own ops f NU K PL; try discriminate NU;
    try match goal with |- eqv (madeo _ _ ?h) _ => exact (madeo_parts h own ops f eq_refl NU K PL) end.
  apply (IH (toks ++ own) ops f NU K PL).
Qed.

Lemma madeo_make : forall h ops, make_filler P dflt h ops = madeo [] ops h.
Proof. reflexivity. Qed.
Lemma made_make : forall h, make_filler P dflt h [] = made [] [] h.
Proof. reflexivity. Qed.

Lemma eqv_calls : forall r r', eqv r r' ->
  (forall f, r = Ok f -> exists g, r' = Ok g /\ forall x w, call P f x w = call P g x w) /\
  (forall e, r = Raise e -> exists e', r' = Raise e').
Proof.
  intros r r' [S1 S2]. split.
  - intros f E. destruct (S1 _ E) as (g & -> & X). exists g. split; [reflexivity|]. intros x w. apply (call_ext _ _ _ X).
  - intros e ->. destruct r' as [g|e']; [|eauto]. destruct (S2 g eq_refl) as (f & H & _). discriminate.
Qed.

Lemma made_last : forall h ts own, is_union h = true -> eqv (made own ts h) (made (own ++ ts) [] h).
Proof.
  induction h as [t0| | | |h IH|hs IH|lid vals|base|hs IH|h IH|rk t0 h IH|rk t0 hk hv IHk IHv|t0 hs IH|t0| |h toks IH]
    using hint_ind'; intros ts own U; try discriminate U.
  - destruct h; try discriminate U; apply (IH ts own U).
  - split; intros f H; apply made_union in H as (ss & H & ->); rewrite ?app_nil_r in H.
    + exists (FUnion (own ++ ts) [] ss true). split; [apply made_union; rewrite app_nil_r; eauto|]. apply union_ext. apply exts_refl.
    + exists (FUnion own ts ss true). split; [apply made_union; eauto|]. apply union_ext. apply exts_refl.
  - pose proof (IH ts (toks ++ own) U) as H. rewrite <- app_assoc in H. exact H.
Qed.

Lemma madeo_members : forall h ops f, is_union h = true -> unannotated h = true -> own_ops ops = [] ->
  keys_ok (List.length (parts h)) ops -> parts_like ops f (parts h) ->
  eqv (madeo [] ops h) (made [] [] (on_parts f h)).
Proof.
  assert (UN : forall (hs : list hint) ops f, own_ops ops = [] -> keys_ok (List.length hs) ops -> parts_like ops f hs ->
    eqv (madeo [] ops (HUnion hs)) (made [] [] (HUnion (map_i f 0 hs)))).
  { intros hs ops f O K PL. split; intros g H.
    - apply madeo_union in H as (ss & H & ->); [|exact K]. rewrite O in *. destruct (parts_to _ _ _ _ PL H) as (xs & EX & X).
      eexists. split; [apply made_union; eauto|]. apply union_ext. exact X.
    - apply made_union in H as (ss & H & ->). destruct (parts_from _ _ _ _ PL H) as (xs & EX & X).
      eexists. split; [apply madeo_union; [exact K|]; rewrite O; eauto|]. apply union_ext. exact X. }
  assert (NW : forall h ops f, is_union h = true -> not_ann h = true -> own_ops ops = [] -> keys_ok (List.length (parts h)) ops -> parts_like ops f (parts h) ->
    eqv (madeo [] ops h) (made [] [] (on_parts f h))).
  { induction h as [t0| | | |h IH|hs IH|lid vals|base|hs IH|h IH|rk t0 h IH|rk t0 hk hv IHk IHv|t0 hs IH|t0| |h toks IH]
      using hint_ind'; intros ops f U A O K PL; try discriminate U; try discriminate A.
    - destruct h; try discriminate U; apply (IH ops f U eq_refl O K PL).
    - apply (UN hs ops f O K PL). }
  induction h as [t0| | | |h IH|hs IH|lid vals|base|hs IH|h IH|rk t0 h IH|rk t0 hk hv IHk IHv|t0 hs IH|t0| |h toks IH]
    using hint_ind'; intros ops f U A O K PL; try discriminate U; try (apply (NW _ ops f U eq_refl O K PL)).
  cbn in A. destruct toks; [|discriminate]. apply (IH ops f U A O K PL).
Qed.

Lemma no_part : forall h own f i t, gaf P own h = Ok f -> List.length (parts h) <= i -> apply_at P (Some i) t f = Raise no_sub.
Proof.
  assert (UP : forall i g (l : list filler), List.length l <= i -> update_nth i g l = Raise no_sub).
  { induction i as [|i IH]; intros g [|x l] L; try reflexivity; cbn in *; [lia|]. rewrite IH by lia. reflexivity. }
  induction h as [t0| | | |h IH|hs IH|lid vals|base|hs IH|h IH|rk t0 h IH|rk t0 hk hv IHk IHv|t0 hs IH|t0| |h toks IH]
    using hint_ind'; intros own f i t G L; cbn in G; try (injection G as <-; reflexivity).
  - destruct h; try (apply (IH own f i t G L)). destruct own; [|discriminate]. injection G as <-. reflexivity.
  - apply obind_Ok in G as (subs & G & H). injection H as <-. cbn in *. rewrite UP; [reflexivity|]. rewrite (mapO_length _ _ _ G). exact L.
  - apply obind_Ok in G as (subs & G & H). injection H as <-. cbn in *. rewrite UP; [reflexivity|]. rewrite (mapO_length _ _ _ G). exact L.
  - apply obind_Ok in G as (subs & G & H). injection H as <-. cbn in *. destruct i; [lia|reflexivity].
  - apply obind_Ok in G as (subs & G & H). injection H as <-. cbn in *. destruct i; [lia|reflexivity].
  - apply obind_Ok in G as (subs & G & H). apply obind_Ok in H as (subs2 & G2 & H). injection H as <-. cbn in *. destruct i as [|[|i]]; [lia|lia|reflexivity].
  - apply obind_Ok in G as (subs & G & H). injection H as <-. reflexivity.
  - destruct own; [|discriminate]. injection G as <-. reflexivity.
  - apply (IH (toks ++ own) f i t G L).
Qed.
End Added.

Lemma c96_written_partial_proof : forall {obj ty W} (P : Py obj ty W) dflt h ops,
  is_union h = false ->
  (forall i t, In (Some i, t) ops -> i < List.length (parts h)) ->
  (forall i p, nth_error (parts h) i = Some p -> is_union p = false \/ sub_ops ops i = []) ->
  let h' := write_first (own_ops ops) (on_parts (fun i p => write_first (sub_ops ops i) p) h) in
  (forall f, make_filler P dflt h ops = Ok f ->
     exists g, make_filler P dflt h' [] = Ok g /\ forall x w, call P f x w = call P g x w) /\
  (forall e, make_filler P dflt h ops = Raise e -> exists e', make_filler P dflt h' [] = Raise e').
Proof.
  intros obj ty W P dflt h ops NU K NP h'. apply eqv_calls. rewrite madeo_make, made_make. apply madeo_written; auto.
  intros n p E. apply part_first. apply (NP n p E).
Qed.

Lemma c96_union_partial_proof : forall {obj ty W} (P : Py obj ty W) dflt h ts,
  is_union h = true ->
  (forall f, make_filler P dflt h (own_only ts) = Ok f ->
     exists g, make_filler P dflt (write_last ts h) [] = Ok g /\ forall x w, call P f x w = call P g x w) /\
  (forall e, make_filler P dflt h (own_only ts) = Raise e -> exists e', make_filler P dflt (write_last ts h) [] = Raise e').
Proof.
  intros obj ty W P dflt h ts U. apply eqv_calls. rewrite madeo_make, made_make.
  assert (K : keys_ok 0 (own_only ts)).
  { intros i t I. unfold own_only in I. apply in_map_iff in I as (u & [=] & _). }
  pose proof (made_last P dflt h ts [] U) as [E1 E2].
  change (made P dflt [] [] (write_last ts h)) with (made P dflt (ts ++ []) [] h). rewrite app_nil_r. cbn [app] in E1, E2. split.
  - intros f H. apply (madeo_none P dflt _ _ _ _ K) in H. rewrite own_ops_own_only in H. apply E1. exact H.
  - intros f H. apply E2 in H as (g & H & X). exists g. split; [|exact X]. apply (madeo_none P dflt _ _ _ _ K). rewrite own_ops_own_only. exact H.
Qed.

Lemma c96_members_partial_proof : forall {obj ty W} (P : Py obj ty W) dflt h ops,
  is_union h = true -> unannotated h = true -> own_ops ops = [] ->
  (forall i t, In (Some i, t) ops -> i < List.length (parts h)) ->
  (forall i p, nth_error (parts h) i = Some p -> is_union p = false \/ sub_ops ops i = []) ->
  let h' := on_parts (fun i p => write_first (sub_ops ops i) p) h in
  (forall f, make_filler P dflt h ops = Ok f ->
     exists g, make_filler P dflt h' [] = Ok g /\ forall x w, call P f x w = call P g x w) /\
  (forall e, make_filler P dflt h ops = Raise e -> exists e', make_filler P dflt h' [] = Raise e').
Proof.
  intros obj ty W P dflt h ops U A O K NP h'. apply eqv_calls. rewrite madeo_make, made_make. apply madeo_members; auto.
  intros n p E. apply part_first. apply (NP n p E).
Qed.

Lemma c96_no_part_proof : forall {obj ty W} (P : Py obj ty W) dflt h i t ops f,
  make_filler P dflt h [] = Ok f -> List.length (parts h) <= i ->
  exists e, make_filler P dflt h ((Some i, t) :: ops) = Raise e /\ exc_cls e = LookupError.
Proof.
  intros obj ty W P dflt h i t ops f H L. unfold make_filler, get_filler in *. apply obind_Ok in H as (g & G & _). rewrite G. cbn [obind apply_ops].
  rewrite (no_part P h [] g i t G L). cbn [obind]. eexists. split; reflexivity.
Qed.

(** two validators that do not commute *)
Definition neg_then : @token dobj dty demo_state := TValid (VGlobal (fun _ => Ok (fun x => match x with DInt z => ret (DInt (Z.opp z)) | _ => ret x end))).
Definition add_one : @token dobj dty demo_state := TValid (VGlobal (fun _ => Ok (fun x => match x with DInt z => ret (DInt (Z.add z 1)) | _ => ret x end))).
Definition either : @hint dobj dty demo_state := HAnn (HUnion [HTy TInt; HTy TStr]) [add_one].

Lemma c96_sub_filler_proof : forall {obj ty W} (P : Py obj ty W) h own f i,
  gaf P own h = Ok f ->
  match nth_error (parts h) i with
  | Some p => exists s, gaf P [] p = Ok s /\ sub_filler f (Some i) = Ok s
  | None => exists e, sub_filler f (Some i) = Raise e /\ exc_cls e = LookupError
  end.
Proof.
  intros obj ty W P.
  assert (SU : forall i (hs : list (@hint obj ty W)) subs, mapO (gaf P []) hs = Ok subs ->
    match nth_error hs i with
    | Some p => exists s, gaf P [] p = Ok s /\ nth_error subs i = Some s
    | None => nth_error subs i = None
    end).
  { induction i as [|i IH]; intros [|h hs] subs E; cbn in E; try (injection E as <-; reflexivity);
      apply obind_Ok in E as (s & E1 & E); apply obind_Ok in E as (ss & E2 & E); injection E as <-; cbn; eauto.
    apply IH. exact E2. }
  assert (NS : exists e, @Raise (@filler obj ty W) no_sub = Raise e /\ exc_cls e = LookupError) by (eexists; split; reflexivity).
  induction h as [t0| | | |h IH|hs IH|lid vals|base|hs IH|h IH|rk t0 h IH|rk t0 hk hv IHk IHv|t0 hs IH|t0| |h toks IH]
    using hint_ind'; intros own f i G; cbn in G.
  all: try (injection G as <-; destruct i; exact NS).
  - destruct h; try (apply (IH own f i G)). destruct own; [|discriminate]. injection G as <-. destruct i; exact NS.
  - apply obind_Ok in G as (subs & G & H). injection H as <-. cbn. specialize (SU i hs subs G). destruct (nth_error hs i) as [p|].
    + destruct SU as (s & E & ->). eauto.
    + rewrite SU. exact NS.
  - apply obind_Ok in G as (subs & G & H). injection H as <-. cbn. specialize (SU i hs subs G). destruct (nth_error hs i) as [p|].
    + destruct SU as (s & E & ->). eauto.
    + rewrite SU. exact NS.
  - apply obind_Ok in G as (s & G & H). injection H as <-. cbn. destruct i as [|[|i]]; cbn; eauto.
  - apply obind_Ok in G as (s & G & H). injection H as <-. cbn. destruct i as [|[|i]]; cbn; eauto.
  - apply obind_Ok in G as (s & G & H). apply obind_Ok in H as (s2 & G2 & H). injection H as <-. cbn. destruct i as [|[|[|i]]]; cbn; eauto.
  - apply obind_Ok in G as (s & G & H). injection H as <-. destruct i; exact NS.
  - destruct own; [|discriminate]. injection G as <-. destruct i; exact NS.
  - apply (IH (toks ++ own) f i G).
Qed.

Lemma c96_apply_at_proof : forall {obj ty W} (P : Py obj ty W) i t f f',
  apply_at P (Some i) t f = Ok f' ->
  exists s s', sub_filler f (Some i) = Ok s /\ apply P s t = Ok s' /\ sub_filler f' (Some i) = Ok s' /\
    (forall j, j <> i -> sub_filler f' (Some j) = sub_filler f (Some j)).
Proof.
  intros obj ty W P i t f f' H.
  assert (UP : forall i (l l' : list (@filler obj ty W)), update_nth i (fun sf => apply P sf t) l = Ok l' ->
    exists s s', nth_error l i = Some s /\ apply P s t = Ok s' /\ nth_error l' i = Some s' /\ forall j, j <> i -> nth_error l' j = nth_error l j).
  { induction i0 as [|n IH]; intros [|x l] l' E; cbn in E; try discriminate;
      apply obind_Ok in E as (y & E1 & E); injection E as <-.
    - exists x, y. repeat split; auto. intros [|j] NJ; [contradiction|reflexivity].
    - destruct (IH _ _ E1) as (s & s' & A & B & C & D). exists s, s'. repeat split; auto.
      intros [|j] NJ; [reflexivity|]. cbn. apply D. congruence. }
  destruct f; cbn in H; try discriminate.
  all: try (apply obind_Ok in H as (l' & E & H); injection H as <-; destruct (UP _ _ _ E) as (s & s' & A & B & C & D); exists s, s'; cbn;
            rewrite A, C; repeat split; auto; intros j NJ; rewrite (D j NJ); reflexivity).
  all: destruct i as [|[|i]]; try discriminate; apply obind_Ok in H as (s' & E & H); injection H as <-; do 2 eexists;
       (split; [reflexivity|split; [exact E|split; [reflexivity|]]]); intros [|[|j]] NJ; try contradiction; reflexivity.
Qed.

Lemma c96_union_refuted_proof :
  ~ (forall obj ty W (P : Py obj ty W) dflt h ts f g x w,
       make_filler P dflt h (own_only ts) = Ok f -> make_filler P dflt (write_first ts h) [] = Ok g ->
       call P f x w = call P g x w).
Proof.
  intros H. specialize (H dobj dty demo_state demo0 SCheck either [neg_then]).
  destruct (make_filler demo0 SCheck either (own_only [neg_then])) as [f|e] eqn:E1; [|vm_compute in E1; discriminate].
  destruct (make_filler demo0 SCheck (write_first [neg_then] either) []) as [g|e] eqn:E2; [|vm_compute in E2; discriminate].
  specialize (H f g (DInt 5) st0 eq_refl eq_refl).
  vm_compute in E1. injection E1 as <-. vm_compute in E2. injection E2 as <-. vm_compute in H. discriminate.
Qed.
