(** Given_main.v -- proofs of the properties stated in Props_Given.v: Blacklists and whitelists as they are given (records/record.py:300-344) *)

From Verif Require Import Base Py Select Filler Classes Spec_Classes Runtime Record Spec_Record Spec_Inst Given Spec_Given Demo DemoRt DemoCls.
From Verif Require Dict_proofs Filler_proofs Classes_proofs Record_proofs Inst_proofs Inst_main.
Open Scope string_scope.
Open Scope list_scope.

Import Dict_proofs Filler_proofs Classes_proofs Record_proofs Inst_proofs.

Lemma white_in : forall {W} (g : given string W) l, holds_names g l -> forall k, c_in (normal String.eqb g) k = ret (smem k l).
Proof.
  intros W [a|c] l H k; cbn in *.
  - subst l. unfold smem. reflexivity.
  - destruct (H k) as (b & -> & HB). f_equal. destruct (smem k l) eqn:E.
    + apply HB. apply smem_In. exact E.
    + destruct b; [|reflexivity]. assert (In k l) by (apply HB; reflexivity). apply smem_In in H0. congruence.
Qed.
Lemma black_and : forall {W} (g : given nat W) l, meets_tags g l ->
  forall s, c_and (normal Nat.eqb g) s = ret (existsb (fun t => existsb (Nat.eqb t) l) s).
Proof.
  intros W [a|c] l H s; cbn in *.
  - subst l. reflexivity.
  - destruct (H s) as (b & -> & HB). f_equal. destruct (existsb (fun t => existsb (Nat.eqb t) l) s) eqn:E.
    + apply HB. apply existsb_exists in E. destruct E as (t & HT & E). apply existsb_exists in E. destruct E as (t' & HT' & E).
      apply Nat.eqb_eq in E. subst t'. eauto.
    + destruct b; [|reflexivity]. destruct (proj1 HB eq_refl) as (t & HT & HL).
      assert (X : existsb (fun t => existsb (Nat.eqb t) l) s = true).
      { apply existsb_exists. exists t. split; [assumption|]. apply existsb_exists. exists t. split; [assumption|apply Nat.eqb_refl]. }
      congruence.
Qed.

Lemma c144_same_partial_proof : forall {obj ty W} (R : Rt obj ty W) c x a lb lw black white w,
  meets_tags black lb -> holds_names white lw ->
  to_dict_given R c x (e_defaults a) (e_sort a) black white w =
  to_dict_of R c x (ExportArgs (e_defaults a) (e_sort a) (BlackSet lb) lw) sel_empty w.
Proof.
  intros obj ty W R c x a lb lw black white w HB HW. unfold to_dict_given, to_dict_of. cbn [e_sort].
  assert (G : forall fs w, extract_g R (e_defaults a) (normal Nat.eqb black) (normal String.eqb white) (missing_ok c sel_empty) x fs w =
                           extract R (missing_ok c sel_empty) x (ExportArgs (e_defaults a) (e_sort a) (BlackSet lb) lw) fs w).
  { induction fs as [|f r IH]; intro w0; [reflexivity|]. cbn [extract_g extract]. unfold bind at 1. unfold bind at 2.
    assert (E1 : extract_one_g R (e_defaults a) (normal Nat.eqb black) (normal String.eqb white) (missing_ok c sel_empty) x f w0 =
                 extract_one R (missing_ok c sel_empty) x (ExportArgs (e_defaults a) (e_sort a) (BlackSet lb) lw) f w0).
    { unfold extract_one_g, extract_one, export_field_g, export_field. unfold bind at 1 2. rewrite (white_in white lw HW). cbn [ret e_white e_black e_defaults].
      assert (EV : forall v w1, export_value_g R (e_defaults a) (normal String.eqb white) f v w1 =
                   export_value R (ExportArgs (e_defaults a) (e_sort a) (BlackSet lb) lw) f v w1).
      { intros v w1. unfold export_value_g, export_value. unfold bind at 1. rewrite (white_in white lw HW). reflexivity. }
      assert (BODY : forall w1, match getattr R x (x_name f) w1 with
        | (Ok v, w1) => (let* b := export_value_g R (e_defaults a) (normal String.eqb white) f v in ret (if b then [(x_name f, v)] else [])) w1
        | (Raise e, w1) =>
            if is_AttributeError e then
                if negb (missing_ok c sel_empty (x_name f)) then (Raise e, w1) else
                if e_defaults a then
                  match x_default f with
                  | NoDefault => (Ok [], w1)
                  | DefVal d => (Ok [(x_name f, d)], w1)
                  | DefFactory g => (let* d := g in ret [(x_name f, d)]) w1
                  end
                else (Ok [], w1)
            else (Raise e, w1)
        end = match getattr R x (x_name f) w1 with
        | (Ok v, w1) => (let* b := export_value R (ExportArgs (e_defaults a) (e_sort a) (BlackSet lb) lw) f v in ret (if b then [(x_name f, v)] else [])) w1
        | (Raise e, w1) =>
            if is_AttributeError e then
                if negb (missing_ok c sel_empty (x_name f)) then (Raise e, w1) else
                if e_defaults a then
                  match x_default f with
                  | NoDefault => (Ok [], w1)
                  | DefVal d => (Ok [(x_name f, d)], w1)
                  | DefFactory g => (let* d := g in ret [(x_name f, d)]) w1
                  end
                else (Ok [], w1)
            else (Raise e, w1)
        end).
      { intro w1. destruct (getattr R x (x_name f) w1) as [[v|e] w2]; [|reflexivity]. unfold bind. rewrite EV. reflexivity. }
      destruct (smem (x_name f) lw); [exact (BODY w0)|]. unfold bind at 1. rewrite (black_and black lb HB). cbn [ret].
      destruct (existsb (fun t => existsb (Nat.eqb t) lb) (x_tags f)); cbn [negb]; [reflexivity|exact (BODY w0)]. }
    rewrite E1. destruct (extract_one R (missing_ok c sel_empty) x (ExportArgs (e_defaults a) (e_sort a) (BlackSet lb) lw) f w0) as [[h|e] w1]; [|reflexivity].
    unfold bind. rewrite IH. reflexivity. }
  unfold bind. rewrite G. reflexivity.
Qed.

Lemma c144_sets_proof : forall {W} (names : list string) (tags : list nat),
  holds_names (W := W) (Many (set_of String.eqb names)) names /\ meets_tags (W := W) (Many (set_of Nat.eqb tags)) tags.
Proof.
  intros W names tags. split.
  - intros k. exists (existsb (String.eqb k) names). split; [reflexivity|]. rewrite existsb_exists. split.
    + intros (x & I & E). apply String.eqb_eq in E. now subst.
    + intros I. exists k. split; [assumption|apply String.eqb_refl].
  - intros s. exists (existsb (fun t => existsb (Nat.eqb t) tags) s). split; [reflexivity|]. rewrite existsb_exists. split.
    + intros (x & I & E). apply existsb_exists in E. destruct E as (y & J & E). apply Nat.eqb_eq in E. subst. eauto.
    + intros (t & I & J). exists t. split; [assumption|]. apply existsb_exists. exists t. split; [assumption|apply Nat.eqb_refl].
Qed.

Lemma c144_blacklist_refuted_proof : forall {obj ty W} (R : Rt obj ty W) c x defaults s isin white lw w k f,
  made (rt_py R) c -> holds_names white lw -> dget k (c_fields c) = Some f -> ~ In k lw ->
  (forall k, In k lw -> In k (keys (c_fields c)) -> exists v, getattr R x k w = (Ok v, w)) ->
  exists m, to_dict_given R c x defaults s (Many (seq_of isin)) white w = (Raise (mkexc TypeError m), w).
Proof.
  intros obj ty W R c x defaults s isin white lw w k f HM HW HK NK HG. unfold to_dict_given.
  pose proof (Inst_main.made_named R c HM) as [HO HN].
  assert (G : forall fs : dict (@field obj ty W), (forall k f, In (k, f) fs -> dget k (c_fields c) = Some f) -> In (k, f) fs ->
    exists m, extract_g R defaults (normal Nat.eqb (Many (seq_of isin))) (normal String.eqb white) (missing_ok c sel_empty) x
                (map (fun kf => real_field (snd kf)) fs) w = (Raise (mkexc TypeError m), w)).
  { induction fs as [|[k' f'] r IH]; intros HI H0; [destruct H0|]. pose proof (HI k' f' (or_introl eq_refl)) as G'.
    cbn [map snd extract_g].
    destruct (smem k' lw) eqn:EM.
    - assert (EM' := EM). apply smem_In in EM'. destruct (HG k' EM') as [v EV]; [eapply dget_some_key; exact G'|].
      assert (E1 : extract_one_g R defaults (normal Nat.eqb (Many (seq_of isin))) (normal String.eqb white) (missing_ok c sel_empty) x (real_field f') w =
                   (Ok [(k', v)], w)).
      { unfold extract_one_g, export_field_g, export_value_g, bind, ret. cbn [real_field x_name].
        rewrite !(HN k' f' G'), !(white_in white lw HW), !EM. unfold ret. cbn [negb orb]. rewrite EV. cbn. reflexivity. }
      unfold bind at 1. rewrite E1.
      destruct H0 as [E|H0]; [injection E as -> ->; contradiction|].
      destruct (IH (fun k f H => HI k f (or_intror H)) H0) as [m E]. exists m. unfold bind. rewrite E. reflexivity.
    - assert (E1 : exists m, extract_one_g R defaults (normal Nat.eqb (Many (seq_of isin))) (normal String.eqb white) (missing_ok c sel_empty) x (real_field f') w =
                   (Raise (mkexc TypeError m), w)).
      { eexists. unfold extract_one_g, export_field_g, export_value_g, bind, ret. cbn [real_field x_name].
        rewrite !(HN k' f' G'), !(white_in white lw HW), !EM. unfold ret. cbn. reflexivity. }
      destruct E1 as [m E1]. exists m. unfold bind at 1. rewrite E1. reflexivity. }
  unfold bind. rewrite extraction_empty.
  destruct (G (c_fields c)) as [m ->]; [intros; apply dget_In; assumption|apply dget_Some_In; assumption|]. eauto.
Qed.

(** a class whose field y has the tag 1, and an instance *)
Definition giv_cls := made_of (rdecl 0 false false (Some false) SCheck
  [("x", (an TInt, NoDefault)); ("y", (AHint (HTy TInt) [ATag 1], NoDefault))] [] no_post).
Definition giv_state : rstate := RState [] [Inst (TRec 0) [("x", DInt 3); ("y", DInt 1)] SUnset] [].
