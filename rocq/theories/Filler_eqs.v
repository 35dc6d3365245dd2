(** Filler_eqs.v -- equations for filling: Unions and containers in terms of their parts. *)
From Verif Require Import Base Py Filler Spec_Filler Filler_proofs Filler_sound Filler_shape.

Section Eqs.
Context {obj ty W : Type} (P : Py obj ty W).
Notation token := (@token obj ty W).
Notation hint := (@hint obj ty W).
Notation origin := (@origin ty).
Notation filler := (@filler obj ty W).
Notation afiller := (@afiller obj ty W).
Notation callback := (@callback obj W).
Notation akind := (@akind obj ty).
Notation op := (option nat * token)%type.

Lemma bind_ext : forall {A B} (m m' : M W A) (k k' : A -> M W B) w,
  m w = m' w -> (forall a w1, m' w = (Ok a, w1) -> k a w1 = k' a w1) -> bind m k w = bind m' k' w.
Proof.
  intros A B m m' k k' w HM HK. unfold bind. rewrite HM. destruct (m' w) as [[a|e] w1]; [apply HK|]; reflexivity.
Qed.

(** ** Unions *)

(** the state of the loop after the outcomes [os] *)
Definition best_of (ss : list (obj * tpk)) : list obj * option tpk :=
  match winners ss with
  | [] => ([], None)
  | (v, k) :: r => (map fst ((v, k) :: r), Some k)
  end.

Lemma rank_inj : forall k k', tpk_rank k = tpk_rank k' -> k = k'.
Proof. intros [] []; cbn; congruence. Qed.

Lemma winners_snoc_lt : forall (ss : list (obj * tpk)) v k,
  (forall s, In s ss -> tpk_rank k < tpk_rank (snd s)) -> winners (ss ++ [(v, k)]) = [(v, k)].
Proof.
  intros ss v k H. unfold winners. rewrite filter_app. cbn.
  assert (E1 : forall l, (forall s, In s l -> In s ss) ->
     filter (fun s : obj * tpk => forallb (fun s' => Nat.leb (tpk_rank (snd s)) (tpk_rank (snd s'))) (ss ++ [(v, k)])) l = []).
  { induction l as [|s r IH]; intro HI; [reflexivity|]. cbn [filter].
    rewrite forallb_app. cbn [forallb snd].
    pose proof (H s (HI s (or_introl eq_refl))). destruct (Nat.leb_spec (tpk_rank (snd s)) (tpk_rank k)); [lia|].
    rewrite andb_false_r. apply IH. intros; apply HI; right; assumption. }
  rewrite E1 by auto. cbn [app].
  rewrite forallb_app. cbn [forallb snd]. rewrite Nat.leb_refl.
  replace (forallb (fun s' => Nat.leb (tpk_rank k) (tpk_rank (snd s'))) ss) with true; [reflexivity|].
  symmetry. apply forallb_forall. intros s HI. apply Nat.leb_le. apply H in HI. lia.
Qed.

Lemma winners_snoc_gt : forall (ss : list (obj * tpk)) v k s0,
  In s0 ss -> tpk_rank (snd s0) < tpk_rank k -> winners (ss ++ [(v, k)]) = winners ss.
Proof.
  intros ss v k s0 H0 HL. unfold winners. rewrite filter_app. cbn.
  rewrite forallb_app.
  replace (forallb (fun s' => Nat.leb (tpk_rank k) (tpk_rank (snd s'))) ss) with false; cbn.
  - rewrite app_nil_r. apply filter_ext_in. intros s HI. rewrite forallb_app. cbn [forallb snd].
    destruct (Nat.leb_spec (tpk_rank (snd s)) (tpk_rank k)) as [L|G]; [rewrite !andb_true_r; reflexivity|].
    cbn. rewrite andb_false_r. symmetry. apply not_true_iff_false. intro F.
    rewrite forallb_forall in F. apply F in H0. apply Nat.leb_le in H0. lia.
  - symmetry. apply not_true_iff_false. intro F. rewrite forallb_forall in F. apply F in H0. apply Nat.leb_le in H0. lia.
Qed.

Lemma winners_snoc_eq : forall (ss : list (obj * tpk)) v k s0,
  In s0 (winners ss) -> tpk_rank (snd s0) = tpk_rank k -> winners (ss ++ [(v, k)]) = winners ss ++ [(v, k)].
Proof.
  intros ss v k s0 H0 HE. unfold winners in *. apply filter_In in H0. destruct H0 as [HI HM].
  rewrite forallb_forall in HM.
  rewrite filter_app. f_equal.
  - apply filter_ext_in. intros s HS. rewrite forallb_app. cbn [forallb snd]. rewrite andb_true_r.
    destruct (forallb _ ss) eqn:F; [|reflexivity]. cbn.
    rewrite forallb_forall in F. specialize (F _ HI). apply Nat.leb_le in F. apply Nat.leb_le. lia.
  - cbn. rewrite forallb_app. cbn [forallb snd]. rewrite Nat.leb_refl.
    replace (forallb (fun s' => Nat.leb (tpk_rank k) (tpk_rank (snd s'))) ss) with true; [reflexivity|].
    symmetry. apply forallb_forall. intros s HS. apply HM in HS. rewrite <- HE. assumption.
Qed.

Lemma winners_same_rank : forall (ss : list (obj * tpk)) a b, In a (winners ss) -> In b (winners ss) -> tpk_rank (snd a) = tpk_rank (snd b).
Proof.
  intros ss a b HA HB. unfold winners in *. apply filter_In in HA. apply filter_In in HB.
  destruct HA as [IA MA], HB as [IB MB]. rewrite forallb_forall in MA, MB.
  apply MA in IB. apply MB in IA. apply Nat.leb_le in IA. apply Nat.leb_le in IB. lia.
Qed.

Lemma winners_min : forall (ss : list (obj * tpk)) a s, In a (winners ss) -> In s ss -> tpk_rank (snd a) <= tpk_rank (snd s).
Proof.
  intros ss a s HA HS. unfold winners in HA. apply filter_In in HA. destruct HA as [_ M].
  rewrite forallb_forall in M. apply M in HS. apply Nat.leb_le in HS. assumption.
Qed.

Lemma winners_in : forall (ss : list (obj * tpk)) a, In a (winners ss) -> In a ss.
Proof. intros ss a H. unfold winners in H. apply filter_In in H. tauto. Qed.

Lemma winners_nil : forall (ss : list (obj * tpk)), winners ss = [] -> ss = [].
Proof.
  intros ss H. destruct ss as [|s r]; [reflexivity|]. exfalso.
  assert (EX : exists m, In m (s :: r) /\ forall s', In s' (s :: r) -> tpk_rank (snd m) <= tpk_rank (snd s')).
  { clear H. revert s. induction r as [|s1 r IH]; intros s.
    - exists s. split; [left; reflexivity|]. intros s' [<-|[]]. lia.
    - destruct (IH s1) as (m & HI & HM). destruct (Nat.le_gt_cases (tpk_rank (snd s)) (tpk_rank (snd m))).
      + exists s. split; [left; reflexivity|]. intros s' [<-|HS]; [lia|]. apply HM in HS. lia.
      + exists m. split; [right; assumption|]. intros s' [<-|HS]; [lia|]. apply HM in HS. lia. }
  destruct EX as (m & HI & HM).
  assert (In m (winners (s :: r))).
  { unfold winners. apply filter_In. split; [assumption|]. apply forallb_forall. intros s' HS. apply Nat.leb_le. apply HM; assumption. }
  rewrite H in H0. destruct H0.
Qed.

Definition as_loop (m : M W (list (outcome (obj * tpk)))) (ss : list (obj * tpk)) : M W (list obj * option tpk) :=
  let* os := m in
  match winners (ss ++ successes os) with
  | [] => match last os (Ok (o_none P, PHollow)) with Raise e => raise e | Ok _ => ret ([], None) end
  | _ => ret (best_of (ss ++ successes os))
  end.

Lemma last_cons : forall {A} (a : A) l d, l <> [] -> last (a :: l) d = last l d.
Proof. intros A a [|b r] d N; [congruence|reflexivity]. Qed.

Lemma attempts_length : forall (fs : list (obj -> M W (obj * tpk))) x w os w',
  attempts fs x w = (Ok os, w') -> List.length os = List.length fs.
Proof.
  induction fs as [|f r IH]; intros x w os w' H; cbn in H.
  - injection H as <- <-. reflexivity.
  - destruct (f x w) as [[p|e] w1].
    + minv H. injection H as <- <-. cbn. f_equal. eapply IH; eassumption.
    + destruct (is_Exception e); [|discriminate]. minv H. injection H as <- <-. cbn. f_equal. eapply IH; eassumption.
Qed.

Lemma bind_ret_as : forall (m : M W (list (outcome (obj * tpk)))) o ss w,
  (forall os w', m w = (Ok os, w') -> os = [] -> exists p, o = Ok p) ->
  as_loop (let* os := m in ret (o :: os)) ss w =
  as_loop m (ss ++ match o with Ok p => [p] | Raise _ => [] end) w.
Proof.
  intros m o ss w HN. unfold as_loop, bind, ret. destruct (m w) as [[os|e] w1] eqn:EM; [|reflexivity].
  assert (E : ss ++ successes (o :: os) = (ss ++ match o with Ok p => [p] | Raise _ => [] end) ++ successes os).
  { destruct o; cbn; rewrite <- app_assoc; reflexivity. }
  rewrite E. clear E. destruct (winners _) eqn:EW; [|reflexivity].
  destruct os as [|o1 os].
  - destruct (HN _ _ eq_refl eq_refl) as [p ->]. apply winners_nil in EW. destruct ss; discriminate.
  - rewrite last_cons by discriminate. reflexivity.
Qed.

Lemma union_loop_spec : forall (fs : list (obj -> M W (obj * tpk))) x ss w,
  fs <> [] \/ ss <> [] ->
  union_loop fs x (fst (best_of ss)) (snd (best_of ss)) w = as_loop (attempts fs x) ss w.
Proof.
  induction fs as [|f r IH]; intros x ss w HNE; cbn [union_loop attempts].
  - unfold as_loop. cbn. rewrite app_nil_r. destruct (winners ss) eqn:EW.
    + apply winners_nil in EW. destruct HNE; congruence.
    + unfold ret. f_equal. f_equal. destruct (best_of ss); reflexivity.
  - destruct (f x w) as [[[v k]|e] w1] eqn:EF.
    + assert (STEP : union_loop r x (fst (best_of (ss ++ [(v, k)]))) (snd (best_of (ss ++ [(v, k)]))) w1
                   = as_loop (attempts r x) (ss ++ [(v, k)]) w1).
      { apply IH. right. destruct ss; discriminate. }
      transitivity (as_loop (attempts r x) (ss ++ [(v, k)]) w1).
      2:{ rewrite <- (bind_ret_as (attempts r x) (Ok (v, k)) ss w1) by eauto.
          unfold as_loop, bind. rewrite EF. destruct (attempts r x w1) as [[os|e] w2]; reflexivity. }
      rewrite <- STEP. unfold best_of at 1 2 3 4 5 6. destruct (winners ss) as [|[v0 k0] r0] eqn:EW; cbn [fst snd rank_lt rank_eq].
      * apply winners_nil in EW. subst ss. unfold best_of. rewrite (winners_snoc_lt [] v k) by (intros ? []). reflexivity.
      * assert (I0 : In (v0, k0) (winners ss)) by (rewrite EW; left; reflexivity).
        destruct (Nat.ltb_spec (tpk_rank k) (tpk_rank k0)) as [LT|GE].
        -- unfold best_of. rewrite (winners_snoc_lt ss v k); [reflexivity|].
           intros s HS. pose proof (winners_min _ _ _ I0 HS). cbn in *. lia.
        -- destruct (Nat.eqb_spec (tpk_rank k) (tpk_rank k0)) as [EQ|NE].
           ++ unfold best_of. rewrite (winners_snoc_eq ss v k (v0, k0) I0) by (cbn; congruence). rewrite EW. cbn.
              rewrite map_app. reflexivity.
           ++ unfold best_of. rewrite (winners_snoc_gt ss v k (v0, k0)), EW; [reflexivity| |cbn; lia].
              apply winners_in; assumption.
    + destruct (is_Exception e) eqn:EX.
      2:{ unfold as_loop, bind. rewrite EF, EX. reflexivity. }
      destruct r as [|f' r'].
      * unfold best_of. destruct (winners ss) as [|[v0 k0] r0] eqn:EW; cbn [fst snd map].
        -- unfold as_loop, bind. rewrite EF, EX. cbn. rewrite app_nil_r, EW. reflexivity.
        -- unfold as_loop, bind. rewrite EF, EX. cbn. rewrite app_nil_r. unfold best_of. rewrite EW. reflexivity.
      * transitivity (as_loop (attempts (f' :: r') x) ss w1).
        -- rewrite <- IH by (left; discriminate). destruct (fst (best_of ss)); reflexivity.
        -- rewrite <- (app_nil_r ss) at 1.
           rewrite <- (bind_ret_as (attempts (f' :: r') x) (Raise e) ss w1).
           2:{ intros os w' HA ->. apply attempts_length in HA. discriminate. }
           unfold as_loop, bind. rewrite EF, EX.
           destruct (attempts (f' :: r') x w1) as [[os|e'] w2]; reflexivity.
Qed.

Lemma existsb_forallb : forall {A} (p : A -> bool) l, existsb (fun a => negb (p a)) l = negb (forallb p l).
Proof. intros A p l; induction l as [|a r IH]; cbn; [reflexivity|]. rewrite IH, negb_andb. reflexivity. Qed.

Lemma last_irrel : forall {A} (l : list A) d d', l <> [] -> last l d = last l d'.
Proof. intros A l; induction l as [|a [|b r] IH]; intros d d' N; [congruence|reflexivity|]. apply IH. discriminate. Qed.

Lemma last_In : forall {A} (l : list A) d, l <> [] -> In (last l d) l.
Proof. intros A l; induction l as [|a [|b r] IH]; intros d N; [congruence|left; reflexivity|]. right. apply IH. discriminate. Qed.

Lemma union_spec : forall (fs : list (obj -> M W (obj * tpk))) x w, fs <> [] ->
  (let* p := (let* bk := union_loop fs x [] None in union_finish P (fst bk) (snd bk)) in ret (fst p)) w =
  (let* os := attempts fs x in lift (verdict P os)) w.
Proof.
  intros fs x w HN. pose proof (union_loop_spec fs x [] w (or_introl HN)) as HU. cbn [best_of winners filter fst snd] in HU.
  unfold bind at 1 2. rewrite HU. unfold as_loop, bind. destruct (attempts fs x w) as [[os|e] w1] eqn:EA; [|reflexivity].
  cbn [app]. unfold verdict, best_of. pose proof (attempts_length _ _ _ _ _ EA) as LEN.
  assert (ON : os <> []) by (destruct os; [destruct fs; [congruence|discriminate]|discriminate]).
  destruct (winners (successes os)) as [|[v k] r] eqn:EW.
  - rewrite (last_irrel os _ (Raise (mkexc LookupError "list index out of range")) ON).
    destruct (last os _) as [p|e] eqn:EL; [|reflexivity]. exfalso.
    apply winners_nil in EW. pose proof (last_In os (Raise (mkexc LookupError "list index out of range")) ON) as HI.
    rewrite EL in HI. assert (In p (successes os)). { unfold successes. apply in_flat_map. exists (Ok p). split; [assumption|left; reflexivity]. }
    rewrite EW in H. destruct H.
  - unfold ret, union_finish. cbn [fst snd map].
    rewrite (existsb_forallb (fun y => py_is P y v) (map fst r)).
    assert (E : forallb (fun y => py_is P y v) (map fst r) = forallb (fun s => py_is P (fst s) v) r).
    { clear. induction r as [|s r IH]; cbn; [reflexivity|]. rewrite IH. reflexivity. }
    rewrite E. destruct (forallb _ r); reflexivity.
Qed.

(** ** Containers *)

Lemma same_objects_eq : forall l l', same_objects P l l' = true <-> l = l'.
Proof.
  induction l as [|a r IH]; intros [|b s]; cbn; split; try congruence.
  - intro H. apply andb_prop in H. destruct H as [H1 H2]. destruct (py_isP P a b); [|discriminate].
    apply IH in H2. congruence.
  - intro H. injection H as -> ->. destruct (py_isP P b b); [|congruence]. cbn. apply IH. reflexivity.
Qed.

Lemma fill_rest_spec : forall rk elt v l dn w,
  fill_rest P rk elt v dn l w =
  (let* l' := mapM elt l in if same_objects P l l' then ret v else rebuild P rk v (dn ++ l')) w.
Proof.
  induction l as [|e r IH]; intros dn w; [reflexivity|]. cbn.
  rewrite bind_assoc. apply bind_ext; [reflexivity|]. intros e' w1 _.
  rewrite bind_assoc. cbn. destruct (py_isP P e' e) as [->|N].
  - rewrite IH. apply bind_ext; [reflexivity|]. intros l' w2 _. unfold bind, ret. cbn.
    destruct (py_isP P e e); [|congruence]. cbn. rewrite <- app_assoc. reflexivity.
  - apply bind_ext; [reflexivity|]. intros l' w2 _. unfold bind, ret. cbn.
    destruct (py_isP P e e'); [congruence|]. reflexivity.
Qed.

Lemma iter_validator_spec : forall rk elt z w, iter_validator P rk elt z w = fill_elements P rk elt z w.
Proof.
  intros rk elt z w. unfold iter_validator, fill_elements. destruct (elems P z); [|reflexivity]. apply fill_rest_spec.
Qed.

Lemma fill_zip_zipM : forall (fs : list callback) l w, fill_zip fs l w = zipM fs l w.
Proof.
  reflexivity.
Qed.

Lemma tuple_rest_spec : forall v (fs : list callback) l dn w,
  List.length l = List.length fs ->
  tuple_rest P fs v dn l w =
  (let* l' := zipM fs l in if same_objects P l l' then ret v else rebuild P RkPlain v (dn ++ l')) w.
Proof.
  induction fs as [|f fr IH]; intros [|e r] dn w HL; try discriminate; [reflexivity|]. cbn.
  rewrite bind_assoc. apply bind_ext; [reflexivity|]. intros e' w1 _.
  rewrite bind_assoc. cbn. destruct (py_isP P e' e) as [->|N].
  - rewrite IH by (cbn in HL; congruence). apply bind_ext; [reflexivity|]. intros l' w2 _. unfold bind, ret. cbn.
    destruct (py_isP P e e); [|congruence]. cbn. rewrite <- app_assoc. reflexivity.
  - apply bind_ext; [apply fill_zip_zipM|]. intros l' w2 _. unfold bind, ret. cbn.
    destruct (py_isP P e e'); [congruence|]. reflexivity.
Qed.

Lemma tuple_spec : forall (fs : list (obj -> M W obj)) z w,
  (let* y := len_validator P (List.length fs) z in tuple_validator P fs y) w = fill_positions P fs z w.
Proof.
  intros fs z w. unfold len_validator, tuple_validator, fill_positions, callback. destruct (elems P z) as [l|] eqn:EL.
  - destruct (Nat.eqb_spec (List.length l) (List.length fs)) as [E|N]; [|reflexivity].
    unfold bind at 1. cbn [ret]. unfold ret. rewrite EL. apply tuple_rest_spec. assumption.
  - reflexivity.
Qed.

Lemma all_same_pairs : forall l l', List.length l = List.length l' -> all_same P l l' = same_pairs P l l'.
Proof.
  induction l as [|a r IH]; intros [|b s] H; try discriminate; [reflexivity|]. cbn. unfold pair_is.
  rewrite IH by (cbn in H; congruence). reflexivity.
Qed.

Lemma map_validator_spec : forall rk fk fv z w, map_validator P rk fk fv z w = fill_items P rk fk fv z w.
Proof.
  intros rk fk fv z w. unfold map_validator, fill_items. destruct (items P z) as [l|]; [|reflexivity].
  apply bind_ext; [reflexivity|]. intros l' w1 H. apply mapM_length in H. rewrite all_same_pairs by congruence. reflexivity.
Qed.

(** ** A container filler in terms of a class filler and element fillers *)

Lemma plain_class_kind : forall t, plain_class P t -> class_kind P t = KSimple t.
Proof.
  intros t (H1 & H2 & H3). unfold class_kind.
  destruct (ty_eqP P t (t_bool P)); [congruence|]. destruct (ty_eqP P t (t_none P)); [congruence|].
  destruct (ty_eqP P t (t_ellipsis P)); [congruence|reflexivity].
Qed.

Lemma class_part : forall dflt t toks ops a1 a2,
  plain_class P t ->
  aapplys P (mk_afiller (KSimple t) toks) (own_ops ops) = Ok a1 -> abind P dflt a1 = Ok a2 ->
  make_filler P dflt (HAnn (HTy t) toks) (own_only (own_ops ops)) = Ok (FAnn a2).
Proof.
  intros dflt t toks ops a1 a2 HP H1 H2. unfold make_filler, get_filler, bind_filler. cbn.
  rewrite app_nil_r, (plain_class_kind _ HP), apply_ops_own_only.
  assert (HA : forall ts a, applys P (FAnn a) ts = do b <- aapplys P a ts; Ok (FAnn b)).
  { induction ts as [|u r IH]; intros a; cbn; [reflexivity|]. destruct (aapply P a u) as [b|e]; cbn; [apply IH|reflexivity]. }
  rewrite HA, H1. cbn. rewrite H2. reflexivity.
Qed.

Lemma afill_add : forall (a : afiller) v x w,
  (let* p := afill P (add_validator a v) x in ret (fst p)) w =
  (let* z := (let* p := afill P a x in ret (fst p)) in v z) w.
Proof.
  intros a v x w. unfold afill, add_validator, bind. cbn.
  destruct (type_phase P (a_kind a) (a_style a) (a_coercers a) x w) as [[[z k]|e] w1]; [|reflexivity]. cbn.
  rewrite run_validators_app. unfold bind. destruct (run_validators (a_validators a) z w1) as [[y|e] w2]; [|reflexivity].
  cbn. unfold bind. destruct (v y w2) as [[u|e] w3]; reflexivity.
Qed.

Lemma call_ann : forall (a : afiller) x w, call P (FAnn a) x w = (let* p := afill P a x in ret (fst p)) w.
Proof.
  intros a x w. rewrite call_eq. cbn. unfold bind. destruct (afill P a x w) as [[[y k]|e] w1]; reflexivity.
Qed.

Lemma bind_call_ann : forall (a : afiller) x (k : obj -> M W obj) w,
  (let* z := call P (FAnn a) x in k z) w = (let* z := (let* p := afill P a x in ret (fst p)) in k z) w.
Proof. intros. apply bind_ext; [apply call_ann|reflexivity]. Qed.



Lemma hollow_hint_ext : forall dflt (h : hint) sub sub' pre own, (forall i, sub i = sub' i) ->
  hollow_hint dflt sub pre own h = hollow_hint dflt sub' pre own h.
Proof.
  intros dflt. induction h as [t0| | | |h IH|hs IH|lid vals|base|hs IH|h IH|rk t0 h IH|rk t0 hk hv IHk IHv|t0 hs IH|t0| |h toks IH]
    using hint_ind'; intros sub sub' pre own HS; cbn; try reflexivity.
  - destruct h; try (apply IH; assumption). reflexivity.
  - generalize 0. clear IH. induction hs as [|h r IHl]; intros i; cbn; [reflexivity|]. rewrite HS, IHl. reflexivity.
  - apply IH; assumption.
Qed.

Lemma part_hollow : forall dflt h ts g,
  make_filler P dflt h (own_only ts) = Ok g -> is_hollow g = hollow_hint dflt no_sub_tokens ts [] h.
Proof.
  intros dflt h ts g H. rewrite (make_hollow P _ _ _ _ H), own_ops_own_only.
  apply hollow_hint_ext. intros i. apply sub_ops_own_only.
Qed.

Lemma plain_call : forall (f : filler) x w, (forall a, f <> FAnn a) -> call P f x w = (let* p := fill P f x in ret (fst p)) w.
Proof. intros f x w H. destruct f; try reflexivity. destruct (H a); reflexivity. Qed.

Lemma iter_eq : forall dflt rk t h toks ops f,
  plain_class P t ->
  make_filler P dflt (HAnn (HIter rk t h) toks) ops = Ok f ->
  exists f0 g,
    make_filler P dflt (HAnn (HTy t) toks) (own_only (own_ops ops)) = Ok f0 /\
    make_filler P dflt h (own_only (sub_ops ops 0)) = Ok g /\
    forall x w, call P f x w =
      (let* z := call P f0 x in
       if hollow_hint dflt no_sub_tokens (sub_ops ops 0) [] h then ret z
       else fill_elements P rk (call P g) z) w.
Proof.
  intros dflt rk t h toks ops f HP H. unfold make_filler, get_filler, bind_filler in H. cbn in H.
  rewrite app_nil_r in H. oinv H. oinv Ha. injection Ha as <-. oinv H.
  apply ops_iter in Ha. destruct Ha as (a1 & s1 & -> & HA & HS). cbn in H. oinv H. oinv H.
  exists (FAnn a), a2. split; [eapply class_part; eassumption|].
  pose proof (part_make P dflt h _ _ _ _ _ Haa HS Ha0) as HM. rewrite app_nil_r in HM. split; [exact HM|].
  pose proof (part_hollow _ _ _ _ HM) as HH. rewrite HH in H. intros x w.
  destruct (hollow_hint dflt no_sub_tokens (sub_ops ops 0) [] h).
  - injection H as <-. rewrite plain_call by discriminate. cbn [fill].
    rewrite bind_call_ann. unfold bind, ret. destruct (afill P a x w) as [[[y k]|e] w1]; reflexivity.
  - destruct (ahollow a); [discriminate|]. injection H as <-. rewrite plain_call by discriminate. cbn [fill].
    rewrite afill_add, bind_call_ann. apply bind_ext; [reflexivity|]. intros z w1 _. apply iter_validator_spec.
Qed.

Lemma tuplev_eq : forall dflt h toks ops f,
  plain_class P (t_tuple P) ->
  make_filler P dflt (HAnn (HTupleV h) toks) ops = Ok f ->
  exists f0 g,
    make_filler P dflt (HAnn (HTy (t_tuple P)) toks) (own_only (own_ops ops)) = Ok f0 /\
    make_filler P dflt h (own_only (sub_ops ops 0)) = Ok g /\
    forall x w, call P f x w =
      (let* z := call P f0 x in
       if hollow_hint dflt no_sub_tokens (sub_ops ops 0) [] h then ret z
       else fill_elements P RkPlain (call P g) z) w.
Proof.
  intros dflt h toks ops f HP H. unfold make_filler, get_filler, bind_filler in H. cbn in H.
  rewrite app_nil_r in H. oinv H. oinv Ha. injection Ha as <-. oinv H.
  apply ops_tuplev in Ha. destruct Ha as (a1 & s1 & -> & HA & HS). cbn in H. oinv H. oinv H.
  exists (FAnn a), a2. split; [eapply class_part; eassumption|].
  pose proof (part_make P dflt h _ _ _ _ _ Haa HS Ha0) as HM. rewrite app_nil_r in HM. split; [exact HM|].
  pose proof (part_hollow _ _ _ _ HM) as HH. rewrite HH in H. intros x w.
  destruct (hollow_hint dflt no_sub_tokens (sub_ops ops 0) [] h).
  - injection H as <-. rewrite plain_call by discriminate. cbn [fill].
    rewrite bind_call_ann. unfold bind, ret. destruct (afill P a x w) as [[[y k]|e] w1]; reflexivity.
  - destruct (ahollow a); [discriminate|]. injection H as <-. rewrite plain_call by discriminate. cbn [fill].
    rewrite afill_add, bind_call_ann. apply bind_ext; [reflexivity|]. intros z w1 _. apply iter_validator_spec.
Qed.

Lemma map_eq : forall dflt rk t hk hv toks ops f,
  plain_class P t ->
  make_filler P dflt (HAnn (HMap rk t hk hv) toks) ops = Ok f ->
  exists f0 gk gv,
    make_filler P dflt (HAnn (HTy t) toks) (own_only (own_ops ops)) = Ok f0 /\
    make_filler P dflt hk (own_only (sub_ops ops 0)) = Ok gk /\
    make_filler P dflt hv (own_only (sub_ops ops 1)) = Ok gv /\
    forall x w, call P f x w =
      (let* z := call P f0 x in
       if hollow_hint dflt no_sub_tokens (sub_ops ops 0) [] hk && hollow_hint dflt no_sub_tokens (sub_ops ops 1) [] hv then ret z
       else fill_items P rk (call P gk) (call P gv) z) w.
Proof.
  intros dflt rk t hk hv toks ops f HP H. unfold make_filler, get_filler, bind_filler in H. cbn in H.
  rewrite app_nil_r in H. oinv H. oinv Ha. oinv Ha. injection Ha as <-. oinv H.
  apply ops_map in Ha. destruct Ha as (a1' & s1 & s2 & -> & HA & HS & HS2). cbn in H. oinv H. oinv H. oinv H.
  exists (FAnn a), a2, a3. split; [eapply class_part; eassumption|].
  pose proof (part_make P dflt hk _ _ _ _ _ Haa HS Ha0) as HM. rewrite app_nil_r in HM. split; [exact HM|].
  pose proof (part_make P dflt hv _ _ _ _ _ Haa0 HS2 Ha1) as HM2. rewrite app_nil_r in HM2. split; [exact HM2|].
  rewrite (part_hollow _ _ _ _ HM), (part_hollow _ _ _ _ HM2) in H. intros x w.
  destruct (hollow_hint dflt no_sub_tokens (sub_ops ops 0) [] hk && hollow_hint dflt no_sub_tokens (sub_ops ops 1) [] hv).
  - injection H as <-. rewrite plain_call by discriminate. cbn [fill].
    rewrite bind_call_ann. unfold bind, ret. destruct (afill P a x w) as [[[y k]|e] w1]; reflexivity.
  - destruct (ahollow a); [discriminate|]. injection H as <-. rewrite plain_call by discriminate. cbn [fill].
    rewrite afill_add, bind_call_ann. apply bind_ext; [reflexivity|]. intros z w1 _. apply map_validator_spec.
Qed.

Lemma parts_make : forall dflt (hs : list hint) (ts : nat -> list token) u subs subs1 subs2,
  mapO (gaf P []) hs = Ok subs ->
  (forall n s, nth_error subs n = Some s -> exists s1, nth_error subs1 n = Some s1 /\ applys P s (ts n) = Ok s1) ->
  List.length subs1 = List.length subs ->
  mapO (bind_with P dflt u) subs1 = Ok subs2 ->
  List.length subs2 = List.length hs /\
  forall n h, nth_error hs n = Some h ->
    exists g, nth_error subs2 n = Some g /\ make_filler P dflt h (own_only (ts n ++ u)) = Ok g.
Proof.
  intros dflt hs ts u subs subs1 subs2 HG HS HL HB.
  pose proof (mapO_length _ _ _ HG) as FG. pose proof (mapO_length _ _ _ HB) as FB.
  split.
  { congruence. }
  intros n h E. destruct (mapO_nth _ _ _ _ _ HG E) as (s & E1 & G1).
  destruct (HS _ _ E1) as (s1 & E2 & G2). destruct (mapO_nth _ _ _ _ _ HB E2) as (s2 & E3 & G3).
  exists s2. split; [assumption|]. eapply part_make; eassumption.
Qed.

Lemma all_i_forallb : forall {A} (p : nat -> A -> bool) (q : filler -> bool) (l : list A) (m : list filler) i,
  List.length m = List.length l ->
  (forall n a, nth_error l n = Some a -> exists b, nth_error m n = Some b /\ q b = p (i + n) a) ->
  forallb q m = all_i p i l.
Proof.
  induction l as [|a r IH]; intros [|b m] i HL H; try discriminate; [reflexivity|]. cbn.
  destruct (H 0 a eq_refl) as (b' & E & Q). injection E as <-. rewrite Q, Nat.add_0_r. f_equal.
  apply IH; [cbn in HL; congruence|]. intros n c E. destruct (H (S n) c E) as (d & E2 & Q2). exists d.
  rewrite Nat.add_succ_r in Q2. auto.
Qed.

Lemma tuplen_eq : forall dflt hs toks ops f,
  plain_class P (t_tuple P) ->
  make_filler P dflt (HAnn (HTupleN hs) toks) ops = Ok f ->
  exists f0 gs,
    make_filler P dflt (HAnn (HTy (t_tuple P)) toks) (own_only (own_ops ops)) = Ok f0 /\
    List.length gs = List.length hs /\
    (forall n h, nth_error hs n = Some h ->
       exists g, nth_error gs n = Some g /\ make_filler P dflt h (own_only (sub_ops ops n)) = Ok g) /\
    forall x w, call P f x w =
      (let* z := call P f0 x in
       if all_i (fun n h => hollow_hint dflt no_sub_tokens (sub_ops ops n) [] h) 0 hs
       then if style_eqb (eff_style dflt (own_ops ops ++ toks)) SHollow then ret z else check_length P (List.length hs) z
       else fill_positions P (map (call P) gs) z) w.
Proof.
  intros dflt hs toks ops f HP H. unfold make_filler, get_filler, bind_filler in H. cbn in H.
  rewrite app_nil_r in H. oinv H. oinv Ha. injection Ha as <-. oinv H.
  apply ops_tuplen in Ha. destruct Ha as (a1 & s1 & -> & HA & HS). cbn in H. oinv H. oinv H.
  exists (FAnn a), a2. split; [eapply class_part; eassumption|].
  destruct HS as [HL HS]. destruct (parts_make _ _ _ _ _ _ _ Haa HS HL Ha0) as [HL2 HP2].
  split; [assumption|].
  assert (HP3 : forall n h, nth_error hs n = Some h ->
       exists g, nth_error a2 n = Some g /\ make_filler P dflt h (own_only (sub_ops ops n)) = Ok g).
  { intros n h E. destruct (HP2 _ _ E) as (g & E1 & HM). rewrite app_nil_r in HM. eauto. }
  split; [exact HP3|].
  rewrite (all_i_forallb (fun n h => hollow_hint dflt no_sub_tokens (sub_ops ops n) [] h) is_hollow hs a2 0 HL2) in H.
  2:{ intros n h E. destruct (HP3 _ _ E) as (g & E1 & HM). exists g. split; [assumption|]. apply part_hollow. assumption. }
  assert (HH : ahollow a = style_eqb (eff_style dflt (own_ops ops ++ toks)) SHollow).
  { pose proof (afiller_style P dflt (KSimple (t_tuple P)) toks ops [] a1 a1 a HA eq_refl Ha) as HF.
    rewrite app_nil_r in HF. exact HF. }
  rewrite <- HH. assert (LS : List.length s1 = List.length hs).
  { rewrite HL. apply mapO_length in Haa. congruence. }
  rewrite LS in H. intros x w.
  destruct (all_i _ 0 hs).
  - injection H as <-. rewrite plain_call by discriminate. cbn [fill].
    destruct (ahollow a).
    + rewrite bind_call_ann. unfold bind, ret. destruct (afill P a x w) as [[[y k]|e] w1]; reflexivity.
    + rewrite afill_add, bind_call_ann. reflexivity.
  - destruct (ahollow a) eqn:EA; [rewrite EA in H; discriminate|]. rewrite ahollow_add, EA in H. injection H as <-.
    rewrite plain_call by discriminate. cbn [fill].
    rewrite afill_add.
    assert (E : forall w, (let* p := afill P (add_validator a (len_validator P (List.length hs))) x in ret (fst p)) w
                = (let* z := call P (FAnn a) x in len_validator P (List.length hs) z) w).
    { intros w0. rewrite afill_add, bind_call_ann. reflexivity. }
    rewrite (bind_ext _ _ _ _ w (E w) (fun z w1 _ => eq_refl)). rewrite bind_assoc.
    apply bind_ext; [reflexivity|]. intros z w1 _.
    rewrite <- tuple_spec. rewrite map_length, HL2. reflexivity.
Qed.

Lemma union_eq : forall dflt hs toks ops f,
  hs <> [] ->
  make_filler P dflt (HAnn (HUnion hs) toks) ops = Ok f ->
  exists gs,
    List.length gs = List.length hs /\
    (forall n h, nth_error hs n = Some h ->
       exists g, nth_error gs n = Some g /\
         make_filler P dflt h (own_only (sub_ops ops n ++ toks ++ own_ops ops)) = Ok g) /\
    forall x w, call P f x w =
      if all_i (fun n h => hollow_hint dflt no_sub_tokens (sub_ops ops n ++ toks ++ own_ops ops) [] h) 0 hs
      then (Ok x, w)
      else (let* os := attempts (map (fill P) gs) x in lift (verdict P os)) w.
Proof.
  intros dflt hs toks ops f HN H. unfold make_filler, get_filler, bind_filler in H. cbn in H.
  rewrite app_nil_r in H. oinv H. oinv Ha. injection Ha as <-. oinv H.
  apply ops_union in Ha. destruct Ha as (s1 & -> & HL & HS). cbn in H. oinv H. injection H as <-.
  rewrite app_nil_r in *. cbn in Ha.
  destruct (parts_make _ _ _ _ _ _ _ Haa HS HL Ha) as [HL2 HP2].
  exists a. split; [assumption|]. split; [assumption|]. intros x w.
  rewrite plain_call by discriminate. cbn [fill].
  rewrite (all_i_forallb (fun n h => hollow_hint dflt no_sub_tokens (sub_ops ops n ++ toks ++ own_ops ops) [] h) is_hollow hs a 0 HL2).
  2:{ intros n h E. destruct (HP2 _ _ E) as (g & E1 & HM). exists g. split; [assumption|]. apply part_hollow. assumption. }
  destruct (all_i _ 0 hs); [reflexivity|]. apply union_spec. destruct a; [destruct hs; [congruence|discriminate]|discriminate].
Qed.

End Eqs.
