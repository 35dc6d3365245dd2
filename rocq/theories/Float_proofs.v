(** Float_proofs.v -- rounding of binary64 numbers, as far as math.isclose and % need it.
    All values are compared as integers, scaled by a power of two. *)
From Coq Require Import ZArith Lia Bool QArith Qround SpecFloat.
From Verif Require Import Tokens Spec_Tokens.
From Coq Require Import SpecFloat.
Open Scope Z_scope.

Notation fexp := (fexp 53 1024).
Notation bra := (binary_round_aux 53 1024).

Lemma fexp_eq : forall e, fexp e = Z.max (e - 53) (-1074).
Proof. reflexivity. Qed.

Lemma digits_log2 : forall p, Zpos (digits2_pos p) = Z.log2 (Zpos p) + 1.
Proof.
  induction p as [p IH|p IH|]; [| |reflexivity]; cbn [digits2_pos]; rewrite Pos2Z.inj_succ, IH.
  - change (Zpos p~1) with (2 * Zpos p + 1). rewrite Z.log2_succ_double by lia. lia.
  - change (Zpos p~0) with (2 * Zpos p). rewrite Z.log2_double by lia. lia.
Qed.
Lemma zdigits_pos : forall m, 0 < m -> Zdigits2 m = Z.log2 m + 1.
Proof. intros [|p|p] H; try lia. apply digits_log2. Qed.
Lemma log2_bounds : forall m, 0 < m -> 2 ^ (Z.log2 m) <= m < 2 ^ (Z.log2 m + 1).
Proof. intros m H. rewrite Z.add_1_r. apply Z.log2_spec. exact H. Qed.

(** ** shr *)
Lemma shr_1_m : forall r, 0 <= shr_m r -> shr_m (shr_1 r) = shr_m r / 2.
Proof.
  intros [m r s] H. cbn in H. unfold shr_1. destruct m as [|[p|p|]|p]; cbn [shr_m]; try lia; try reflexivity.
  - change (Zpos p~1) with (2 * Zpos p + 1). apply Z.div_unique with 1; lia.
  - change (Zpos p~0) with (2 * Zpos p). apply Z.div_unique with 0; lia.
Qed.
Lemma shr_iter_m : forall p r, 0 <= shr_m r -> shr_m (iter_pos shr_1 p r) = shr_m r / 2 ^ Zpos p.
Proof.
  induction p as [p IH|p IH|]; intros r H; cbn [iter_pos].
  - assert (H1 : 0 <= shr_m (shr_1 r)) by (rewrite shr_1_m by exact H; apply Z.div_pos; lia).
    assert (H2 : 0 <= shr_m (iter_pos shr_1 p (shr_1 r))) by (rewrite IH by exact H1; apply Z.div_pos; [exact H1|]; apply Z.pow_pos_nonneg; lia).
    rewrite IH, IH, shr_1_m by assumption.
    rewrite !Z.div_div by (try lia; try (apply Z.pow_nonzero; lia); apply Z.pow_pos_nonneg; lia). f_equal.
    rewrite <- Z.pow_add_r by lia. replace (Zpos p~1) with (1 + (Zpos p + Zpos p)) by lia. rewrite (Z.pow_add_r 2 1) by lia. reflexivity.
  - assert (H2 : 0 <= shr_m (iter_pos shr_1 p r)) by (rewrite IH by exact H; apply Z.div_pos; [exact H|]; apply Z.pow_pos_nonneg; lia).
    rewrite IH, IH by assumption. rewrite Z.div_div by (try (apply Z.pow_nonzero; lia); apply Z.pow_pos_nonneg; lia). f_equal.
    rewrite <- Z.pow_add_r by lia. f_equal. lia.
  - rewrite shr_1_m by exact H. reflexivity.
Qed.

Lemma shr_fexp_none : forall m e l, fexp (Zdigits2 m + e) <= e -> shr_fexp 53 1024 m e l = (shr_record_of_loc m l, e).
Proof.
  intros m e l H. unfold shr_fexp, shr. destruct (fexp (Zdigits2 m + e) - e) eqn:E; try reflexivity. lia.
Qed.
Lemma shr_fexp_some : forall m e k, 0 <= m -> k = fexp (Zdigits2 m + e) - e -> 0 < k ->
  exists r, shr_fexp 53 1024 m e loc_Exact = (r, e + k) /\ shr_m r = m / 2 ^ k.
Proof.
  intros m e k HM EK HK. unfold shr_fexp, shr. rewrite <- EK. destruct k as [|p|p]; try lia.
  eexists. split; [reflexivity|]. rewrite shr_iter_m; [reflexivity|exact HM].
Qed.
Lemma round_choice : forall m l, round_nearest_even m l = m \/ round_nearest_even m l = m + 1.
Proof. intros m [|[| |]]; cbn; auto. destruct (Z.even m); auto. Qed.

(** ** Canonical floats, and what they stand for *)
Definition canonical (m : positive) (e : Z) : Prop := fexp (Z.log2 (Zpos m) + 1 + e) = e.

(** [R] stands for m * 2^E, with sign [s] *)
Definition stands (s : bool) (R : spec_float) (m E : Z) : Prop :=
  (m = 0 /\ R = S754_zero s) \/
  exists m' e', R = S754_finite s m' e' /\ E <= e' /\ Zpos m' * 2 ^ (e' - E) = m /\ canonical m' e'.

(** a mantissa that fits *)
Lemma bra_fits : forall s p e, fexp (Z.log2 (Zpos p) + 1 + e) = e -> e <= 971 -> bra s (Zpos p) e loc_Exact = S754_finite s p e.
Proof.
  intros s p e HE HM. unfold binary_round_aux.
  assert (Hd : fexp (Zdigits2 (Zpos p) + e) <= e) by (rewrite zdigits_pos by lia; lia).
  rewrite shr_fexp_none by exact Hd. cbn [shr_record_of_loc shr_m loc_of_shr_record round_nearest_even].
  rewrite shr_fexp_none by exact Hd. cbn [shr_record_of_loc shr_m].
  destruct (Z.leb_spec e (1024 - 53)) as [H|H]; [reflexivity|lia].
Qed.

(** what follows the first shift: [m1] has at most 53 digits, or is 2^53 *)
Lemma second_shift : forall s m1 e1, 0 <= m1 <= 2 ^ 53 -> -1074 <= e1 -> e1 <= 960 ->
  (e1 = -1074 \/ 2 ^ 52 <= m1) ->
  stands s (let '(r, e2) := shr_fexp 53 1024 m1 e1 loc_Exact in
     match shr_m r with
     | Z0 => S754_zero s
     | Zpos m => if Zle_bool e2 (1024 - 53) then S754_finite s m e2 else S754_infinity s
     | _ => S754_nan
     end) m1 e1.
Proof.
  intros s m1 e1 HM HE HE2 HC. destruct (Z.eq_dec m1 0) as [->|N0].
  - rewrite shr_fexp_none by (rewrite fexp_eq; cbn [Zdigits2]; lia). left. split; reflexivity.
  - destruct (Z.eq_dec m1 (2 ^ 53)) as [->|N1].
    + destruct (shr_fexp_some (2 ^ 53) e1 1) as (r & -> & Hr); [lia| |lia|].
      * rewrite fexp_eq. rewrite zdigits_pos by lia. rewrite Z.log2_pow2 by lia. lia.
      * rewrite Hr. change (2 ^ 53 / 2 ^ 1) with (Zpos 4503599627370496). destruct (Z.leb_spec (e1 + 1) (1024 - 53)) as [_|H]; [|lia].
        right. eexists _, _. split; [reflexivity|]. split; [lia|]. split; [replace (e1 + 1 - e1) with 1 by lia; reflexivity|].
        unfold canonical. change (Z.log2 (Zpos 4503599627370496)) with 52. rewrite fexp_eq. lia.
    + assert (HP : 0 < m1 < 2 ^ 53) by lia.
      assert (HL : Z.log2 m1 < 53) by (apply Z.log2_lt_pow2; lia).
      assert (HF : fexp (Z.log2 m1 + 1 + e1) = e1).
      { rewrite fexp_eq. destruct HC as [->|HC]; [lia|]. assert (52 <= Z.log2 m1) by (apply Z.log2_le_pow2; lia). lia. }
      rewrite shr_fexp_none by (rewrite zdigits_pos by lia; lia). cbn [shr_record_of_loc shr_m]. destruct m1 as [|p|p]; try lia.
      destruct (Z.leb_spec e1 (1024 - 53)) as [_|H]; [|lia].
      right. exists p, e1. split; [reflexivity|]. split; [lia|]. split; [rewrite Z.sub_diag; lia|exact HF].
Qed.

(** rounding to the exponent [E]: the mantissa is cut off, or one more *)
Lemma bra_rounds : forall s m e E, 0 < m -> E = fexp (Z.log2 m + 1 + e) -> e <= E -> E <= 960 ->
  exists m1, (m1 = m / 2 ^ (E - e) \/ (e < E /\ m1 = m / 2 ^ (E - e) + 1)) /\ stands s (bra s m e loc_Exact) m1 E.
Proof.
  intros s m e E HM HE HLE HMAX. destruct (Z.eq_dec e E) as [->|NE].
  - exists m. split; [left; rewrite Z.sub_diag, Z.div_1_r; reflexivity|]. destruct m as [|p|p]; try lia.
    rewrite bra_fits by lia. right. exists p, E. split; [reflexivity|]. split; [lia|]. split; [rewrite Z.sub_diag; lia|symmetry; exact HE].
  - destruct (shr_fexp_some m e (E - e)) as (r & HS & HR); [lia|rewrite zdigits_pos by lia; lia|lia|].
    unfold binary_round_aux. rewrite HS. set (q := m / 2 ^ (E - e)) in *. rewrite HR.
    set (m1 := round_nearest_even q (loc_of_shr_record r)). exists m1. split.
    { destruct (round_choice q (loc_of_shr_record r)) as [H|H]; fold m1 in H; [left; exact H|right; split; [lia|exact H]]. }
    replace (e + (E - e)) with E by lia.
    pose proof (log2_bounds m HM) as [B1 B2].
    assert (PK : 0 < 2 ^ (E - e)) by (apply Z.pow_pos_nonneg; lia).
    assert (Q0 : 0 <= q) by (apply Z.div_pos; lia).
    assert (Q1 : q < 2 ^ 53).
    { apply Z.div_lt_upper_bound; [exact PK|]. rewrite <- Z.pow_add_r by lia.
      eapply Z.lt_le_trans; [exact B2|]. apply Z.pow_le_mono_r; [lia|]. rewrite fexp_eq in HE. lia. }
    apply second_shift.
    + destruct (round_choice q (loc_of_shr_record r)) as [H|H]; fold m1 in H; lia.
    + rewrite fexp_eq in HE. lia.
    + lia.
    + destruct (Z.eq_dec E (-1074)) as [H|H]; [left; exact H|right].
      assert (Q2 : 2 ^ 52 <= q).
      { apply Z.div_le_lower_bound; [exact PK|]. rewrite <- Z.pow_add_r by lia. eapply Z.le_trans; [|exact B1]. apply Z.pow_le_mono_r; [lia|]. rewrite fexp_eq in HE. lia. }
      destruct (round_choice q (loc_of_shr_record r)) as [H'|H']; fold m1 in H'; lia.
Qed.

Lemma shift_pos_mul : forall d m, Zpos (shift_pos d m) = Zpos m * 2 ^ Zpos d.
Proof. intros d m. rewrite shift_pos_correct. change (Zpower_pos 2 d) with (2 ^ Zpos d). ring. Qed.
Lemma shl_align_mul : forall m e e', e' <= e -> Zpos (fst (shl_align m e e')) = Zpos m * 2 ^ (e - e').
Proof.
  intros m e e' H. unfold shl_align. destruct (e' - e) as [|d|d] eqn:E; [|lia|].
  - cbn [fst]. replace (e - e') with 0 by lia. lia.
  - cbn [fst]. rewrite shift_pos_mul. f_equal. f_equal. lia.
Qed.

(** normalizing: exact if the mantissa fits, otherwise rounded *)
Lemma round_normal : forall s p e E, E = fexp (Z.log2 (Zpos p) + 1 + e) -> E <= 960 ->
  exists m1, ((E <= e /\ m1 = Zpos p * 2 ^ (e - E)) \/ (e < E /\ (m1 = Zpos p / 2 ^ (E - e) \/ m1 = Zpos p / 2 ^ (E - e) + 1))) /\
    stands s (binary_round 53 1024 s p e) m1 E.
Proof.
  intros s p e E HE HMAX. unfold binary_round. rewrite digits_log2. rewrite <- HE.
  destruct (Z.le_gt_cases e E) as [H|H].
  - assert (SA : shl_align p e E = (p, e)) by (unfold shl_align; destruct (E - e) eqn:EE; try reflexivity; lia). rewrite SA.
    destruct (bra_rounds s (Zpos p) e E) as (m1 & H1 & H2); [lia|exact HE|exact H|exact HMAX|]. exists m1. split; [|exact H2].
    destruct (Z.eq_dec e E) as [->|N].
    + left. split; [lia|]. destruct H1 as [->|[? _]]; [|lia]. rewrite Z.sub_diag, Z.div_1_r. lia.
    + right. split; [lia|]. destruct H1 as [->|[_ ->]]; auto.
  - assert (SA : shl_align p e E = (shift_pos (Z.to_pos (e - E)) p, E)).
    { unfold shl_align. destruct (E - e) as [|d|d] eqn:EE; try lia. replace (Z.to_pos (e - E)) with d; [reflexivity|]. assert (e - E = Zpos d) as -> by lia. reflexivity. }
    rewrite SA. set (p' := shift_pos (Z.to_pos (e - E)) p). assert (HP : Zpos p' = Zpos p * 2 ^ (e - E)).
    { unfold p'. rewrite shift_pos_mul. rewrite Z2Pos.id by lia. reflexivity. }
    assert (HL : Z.log2 (Zpos p') = Z.log2 (Zpos p) + (e - E)) by (rewrite HP; rewrite Z.log2_mul_pow2 by lia; lia).
    exists (Zpos p'). split; [left; split; [lia|exact HP]|].
    assert (HF : fexp (Z.log2 (Zpos p') + 1 + E) = E) by (rewrite HL; replace (Z.log2 (Zpos p) + (e - E) + 1 + E) with (Z.log2 (Zpos p) + 1 + e) by lia; symmetry; exact HE).
    rewrite bra_fits by lia. right. exists p', E. split; [reflexivity|]. split; [lia|]. split; [rewrite Z.sub_diag; lia|exact HF].
Qed.

(** ** Values as integers: in units of the least float *)
Definition V (R : spec_float) : Z := match R with S754_finite _ m e => Zpos m * 2 ^ (e + 1074) | _ => 0 end.

Lemma canonical_low : forall m e, canonical m e -> -1074 <= e /\ Zpos m < 2 ^ 53 /\ (e = -1074 \/ 2 ^ 52 <= Zpos m).
Proof.
  intros m e H. unfold canonical in H. rewrite fexp_eq in H. pose proof (log2_bounds (Zpos m) ltac:(lia)) as [B1 B2]. split; [lia|]. split.
  - eapply Z.lt_le_trans; [exact B2|]. apply Z.pow_le_mono_r; lia.
  - destruct (Z.eq_dec e (-1074)) as [HE|HE]; [left; exact HE|right]. eapply Z.le_trans; [|exact B1]. apply Z.pow_le_mono_r; lia.
Qed.

Lemma stands_V : forall s R m E, stands s R m E -> -1074 <= E -> V R = m * 2 ^ (E + 1074).
Proof.
  intros s R m E [[-> ->]|(m' & e' & -> & HE & <- & HC)] H; [reflexivity|]. cbn [V].
  rewrite <- Z.mul_assoc, <- Z.pow_add_r by lia. f_equal. f_equal. lia.
Qed.

(** comparing canonical floats that are not negative compares their values *)
Lemma compare_V : forall m e m' e', canonical m e -> canonical m' e' ->
  SFcompare (S754_finite false m e) (S754_finite false m' e') = Some (Z.compare (Zpos m * 2 ^ (e + 1074)) (Zpos m' * 2 ^ (e' + 1074))).
Proof.
  assert (LT : forall m e m' e', canonical m e -> canonical m' e' -> e < e' -> Zpos m * 2 ^ (e + 1074) < Zpos m' * 2 ^ (e' + 1074)).
  { intros m e m' e' H H' HL. apply canonical_low in H, H'. destruct H as (H1 & H2 & _), H' as (H1' & _ & H3'). destruct H3' as [H3'|H3']; [lia|].
    apply Z.lt_le_trans with (2 ^ 53 * 2 ^ (e + 1074)).
    - apply Z.mul_lt_mono_pos_r; [apply Z.pow_pos_nonneg; lia|exact H2].
    - apply Z.le_trans with (2 ^ 52 * 2 ^ (e' + 1074)).
      + rewrite <- !Z.pow_add_r by lia. apply Z.pow_le_mono_r; lia.
      + apply Z.mul_le_mono_nonneg_r; [apply Z.pow_nonneg; lia|exact H3']. }
  intros m e m' e' H H'. cbn [SFcompare]. f_equal. destruct (Z.compare_spec e e') as [->|HL|HL].
  - symmetry. assert (P : 0 < 2 ^ (e' + 1074)) by (apply Z.pow_pos_nonneg; [lia|]; apply canonical_low in H; lia).
    rewrite <- (Zmult_compare_compat_r (Zpos m) (Zpos m') (2 ^ (e' + 1074))) by lia. reflexivity.
  - symmetry. apply Z.compare_lt_iff. apply LT; assumption.
  - symmetry. apply Z.compare_gt_iff. apply LT; assumption.
Qed.

(** ** Rounding is within one part in 2^52 *)
Lemma cut_bounds : forall m k m1, 0 <= k -> (m1 = m / 2 ^ k \/ m1 = m / 2 ^ k + 1) -> m - 2 ^ k <= m1 * 2 ^ k <= m + 2 ^ k.
Proof.
  intros m k m1 HK H. assert (P : 0 < 2 ^ k) by (apply Z.pow_pos_nonneg; lia). pose proof (Z.div_mod m (2 ^ k) ltac:(lia)) as DM. pose proof (Z.mod_pos_bound m (2 ^ k) P) as MB.
  set (q := m / 2 ^ k) in *. set (K := 2 ^ k) in *. clearbody q K. destruct H as [-> | ->]; nia.
Qed.

Lemma normal_V : forall s p e, -1074 <= e -> Z.log2 (Zpos p) + 1 + e <= 1000 ->
  exists m' e', binary_round 53 1024 s p e = S754_finite s m' e' /\ canonical m' e' /\
    (Z.log2 (Zpos p) < 53 -> Zpos m' * 2 ^ (e' + 1074) = Zpos p * 2 ^ (e + 1074)) /\
    2 ^ 52 * Z.abs (Zpos m' * 2 ^ (e' + 1074) - Zpos p * 2 ^ (e + 1074)) <= Zpos p * 2 ^ (e + 1074).
Proof.
  intros s p e HE HB. destruct (round_normal s p e (fexp (Z.log2 (Zpos p) + 1 + e)) eq_refl) as (m1 & H1 & H2); [rewrite fexp_eq; lia|].
  set (E := fexp (Z.log2 (Zpos p) + 1 + e)) in *. assert (EE : E = Z.max (Z.log2 (Zpos p) + 1 + e - 53) (-1074)) by reflexivity.
  pose proof (stands_V _ _ _ _ H2 ltac:(lia)) as HV. set (v := Zpos p * 2 ^ (e + 1074)) in *.
  assert (VP : 0 < v) by (apply Z.mul_pos_pos; [lia|]; apply Z.pow_pos_nonneg; lia).
  assert (B : (Z.log2 (Zpos p) < 53 -> m1 * 2 ^ (E + 1074) = v) /\ 2 ^ 52 * Z.abs (m1 * 2 ^ (E + 1074) - v) <= v).
  { destruct H1 as [[HL ->]|[HL HC]].
    - assert (EX : Zpos p * 2 ^ (e - E) * 2 ^ (E + 1074) = v) by (unfold v; rewrite <- Z.mul_assoc, <- Z.pow_add_r by lia; f_equal; f_equal; lia).
      rewrite EX. split; [reflexivity|]. rewrite Z.sub_diag. clearbody v. lia.
    - split; [lia|]. apply cut_bounds in HC; [|lia]. pose proof (log2_bounds (Zpos p) ltac:(lia)) as [LB _].
      assert (K : 2 ^ 52 * 2 ^ (E - e) <= Zpos p) by (rewrite <- Z.pow_add_r by lia; eapply Z.le_trans; [|exact LB]; apply Z.pow_le_mono_r; lia).
      replace (2 ^ (E + 1074)) with (2 ^ (E - e) * 2 ^ (e + 1074)) by (rewrite <- Z.pow_add_r by lia; f_equal; lia).
      unfold v. set (a := 2 ^ (E - e)) in *. assert (PB : 0 < 2 ^ (e + 1074)) by (apply Z.pow_pos_nonneg; lia). set (b := 2 ^ (e + 1074)) in *.
      replace (m1 * (a * b) - Zpos p * b) with ((m1 * a - Zpos p) * b) by ring. rewrite Z.abs_mul, (Z.abs_eq b) by lia. rewrite Z.mul_assoc.
      apply Z.mul_le_mono_nonneg_r; [lia|]. lia. }
  destruct B as [B1 B2]. destruct H2 as [[-> _]|(m' & e' & HR & _ & _ & HC)]; [exfalso; clearbody v; rewrite Z.mul_0_l in B2; lia|].
  exists m', e'. rewrite HR in HV. cbn [V] in HV. rewrite HR, HV. auto.
Qed.

(** ** The tolerance *)
Notation Rt := 4835703278458517.

Lemma times_tol : forall mm em, canonical mm em -> em <= 100 ->
  let R := bra false (Zpos (4835703278458517 * mm)) (-82 + em) loc_Exact in
  (R = S754_zero false \/ exists m e, R = S754_finite false m e /\ canonical m e) /\
  2 ^ 134 * V R <= (2 ^ 52 + 1) * Rt * (Zpos mm * 2 ^ (em + 1074)) + 2 ^ 134.
Proof.
  intros mm em HC HM R. apply canonical_low in HC. destruct HC as (H1 & H2 & _).
  set (m := Zpos (4835703278458517 * mm)). set (e := -82 + em). assert (MP : 0 < m) by (unfold m; lia).
  assert (LL : 52 <= Z.log2 m) by (apply Z.log2_le_pow2; [lia|]; unfold m; lia).
  assert (LU : Z.log2 m < 106) by (apply Z.log2_lt_pow2; [lia|]; unfold m; lia).
  destruct (bra_rounds false m e (fexp (Z.log2 m + 1 + e)) MP eq_refl) as (m1 & HM1 & HS); [rewrite fexp_eq; lia|rewrite fexp_eq; unfold e; lia|].
  set (E := fexp (Z.log2 m + 1 + e)) in *. assert (EE : E = Z.max (Z.log2 m + 1 + e - 53) (-1074)) by reflexivity.
  split; [destruct HS as [[_ HS]|(m' & e' & HS & _ & _ & HC)]; [left; exact HS|right; exists m', e'; split; [exact HS|exact HC]]|].
  apply stands_V in HS; [|lia]. fold m e in R. change (V R) with (V (bra false m e loc_Exact)). rewrite HS.
  assert (CB : m1 * 2 ^ (E - e) <= m + 2 ^ (E - e)).
  { destruct (cut_bounds m (E - e) m1) as [_ H]; [lia|destruct HM1 as [->|[_ ->]]; auto|exact H]. }
  pose proof (log2_bounds m MP) as [LB _].
  assert (K : 2 ^ 52 * (2 ^ (E - e) * 2 ^ (em + 1074)) <= m * 2 ^ (em + 1074) + 2 ^ 134).
  { assert (P : 0 <= m * 2 ^ (em + 1074)) by (apply Z.mul_nonneg_nonneg; [lia|apply Z.pow_nonneg; lia]).
    destruct (Z.le_gt_cases (-1074) (Z.log2 m + 1 + e - 53)) as [HH|HH].
    - assert (2 ^ 52 * 2 ^ (E - e) <= m) by (rewrite <- Z.pow_add_r by lia; eapply Z.le_trans; [|exact LB]; apply Z.pow_le_mono_r; lia).
      rewrite Z.mul_assoc. assert (2 ^ 52 * 2 ^ (E - e) * 2 ^ (em + 1074) <= m * 2 ^ (em + 1074)) by (apply Z.mul_le_mono_nonneg_r; [apply Z.pow_nonneg; lia|assumption]). lia.
    - rewrite <- !Z.pow_add_r by lia. replace (52 + (E - e + (em + 1074))) with 134 by (unfold e in *; lia). lia. }
  replace (2 ^ 134 * (m1 * 2 ^ (E + 1074))) with (2 ^ 52 * (m1 * 2 ^ (E - e) * 2 ^ (em + 1074))).
  2:{ replace (2 ^ 134) with (2 ^ 52 * 2 ^ 82) by reflexivity. replace (2 ^ (E + 1074)) with (2 ^ (E + 1074)) by reflexivity.
      rewrite <- !Z.mul_assoc. f_equal. rewrite (Z.mul_comm (2 ^ 82)). rewrite <- !Z.mul_assoc. f_equal. rewrite <- !Z.pow_add_r by lia. f_equal. unfold e. lia. }
  apply Z.le_trans with (2 ^ 52 * ((m + 2 ^ (E - e)) * 2 ^ (em + 1074))).
  - apply Z.mul_le_mono_nonneg_l; [lia|]. apply Z.mul_le_mono_nonneg_r; [apply Z.pow_nonneg; lia|exact CB].
  - set (b := 2 ^ (em + 1074)) in *. replace (Rt * (Zpos mm * b)) with (m * b) by (unfold m; rewrite Pos2Z.inj_mul; ring).
    replace ((2 ^ 52 + 1) * Rt * (Zpos mm * b)) with ((2 ^ 52 + 1) * (m * b)) by (unfold m; rewrite Pos2Z.inj_mul; ring). lia.
Qed.

(** ** math.isclose *)

Lemma leb_V : forall m e m' e', canonical m e -> canonical m' e' ->
  SFleb (S754_finite false m e) (S754_finite false m' e') = Z.leb (Zpos m * 2 ^ (e + 1074)) (Zpos m' * 2 ^ (e' + 1074)).
Proof.
  intros m e m' e' H H'. unfold SFleb. rewrite compare_V by assumption. unfold Z.leb. destruct (_ ?= _); reflexivity.
Qed.

(** a float that is not zero is not close to zero *)
Lemma not_close_zero : forall mm em, canonical mm em -> em <= 100 -> isclose (S754_finite false mm em) (S754_zero false) = false.
Proof.
  intros mm em HC HM. unfold isclose. cbn [SFeqb SFcompare SFsub SFabs negb SFmul xorb].
  change (SFmul prec emax rel_tol (S754_zero false)) with (S754_zero false). cbn [SFabs].
  change (SFmul prec emax rel_tol (S754_finite false mm em)) with (bra false (Zpos (4835703278458517 * mm)) (-82 + em) loc_Exact).
  change (SFleb (S754_finite false mm em) (S754_zero false)) with false. cbn [orb].
  destruct (times_tol mm em HC HM) as [HR HV]. cbv zeta in HR, HV. pose proof (canonical_low mm em HC) as (L1 & L2 & _).
  destruct HR as [->|(m & e & HR & HC')]; [reflexivity|]. rewrite HR in *. cbn [SFabs]. rewrite leb_V by assumption. cbn [V] in HV.
  apply Z.leb_gt. assert (P1 : 1 <= Zpos mm * 2 ^ (em + 1074)).
  { assert (0 < 2 ^ (em + 1074)) by (apply Z.pow_pos_nonneg; lia). nia. }
  destruct (Z.eq_dec (Zpos mm * 2 ^ (em + 1074)) 1) as [E1|N1].
  - assert (em = -1074) as ->.
    { destruct (Z.eq_dec em (-1074)) as [|N]; [assumption|exfalso]. assert (2 ^ 1 <= 2 ^ (em + 1074)) by (apply Z.pow_le_mono_r; lia). change (2 ^ 1) with 2 in *. nia. }
    rewrite Z.mul_1_r in E1. injection E1 as ->. vm_compute in HR. discriminate.
  - set (a := Zpos m * 2 ^ (e + 1074)) in *. set (b := Zpos mm * 2 ^ (em + 1074)) in *. clearbody a b. clear - HV P1 N1. lia.
Qed.

(** 1 is 2^52 * 2^-52; its value *)
Notation unit := (2 ^ 992).
Lemma one_V : Zpos 4503599627370496 * 2 ^ (-52 + 1074) = 2 ^ 82 * unit.
Proof. reflexivity. Qed.
Lemma one_canonical : canonical 4503599627370496 (-52).
Proof. reflexivity. Qed.
Lemma tol_canonical : canonical 4835703278458517 (-82).
Proof. reflexivity. Qed.

Lemma eqb_V : forall m e m' e', canonical m e -> canonical m' e' ->
  SFeqb (S754_finite false m e) (S754_finite false m' e') = Z.eqb (Zpos m * 2 ^ (e + 1074)) (Zpos m' * 2 ^ (e' + 1074)).
Proof.
  intros m e m' e' H H'. unfold SFeqb. rewrite compare_V by assumption. rewrite Z.eqb_compare. destruct (_ ?= _); reflexivity.
Qed.

(** 1 - x, rounded *)
Lemma sub_one : forall mm em, canonical mm em -> em <= 0 ->
  let d := Z.abs (2 ^ 82 * unit - Zpos mm * 2 ^ (em + 1074)) in
  0 < d -> exists m' e', SFabs (SFsub prec emax f_one (S754_finite false mm em)) = S754_finite false m' e' /\ canonical m' e' /\
    2 ^ 52 * Z.abs (Zpos m' * 2 ^ (e' + 1074) - d) <= d.
Proof.
  intros mm em HC HM d HD. pose proof (canonical_low mm em HC) as (L1 & L2 & _). unfold f_one. cbn [SFsub cond_Zopp].
  set (ez := Z.min (-52) em). rewrite !shl_align_mul by (unfold ez; lia).
  set (D := Zpos 4503599627370496 * 2 ^ (-52 - ez) - Zpos mm * 2 ^ (em - ez)).
  assert (ED : Z.abs D * 2 ^ (ez + 1074) = d).
  { unfold d, D. rewrite <- (Z.abs_eq (2 ^ (ez + 1074))) at 1 by (apply Z.pow_nonneg; lia). rewrite <- Z.abs_mul. f_equal. rewrite Z.mul_sub_distr_r. rewrite <- one_V.
    rewrite <- !Z.mul_assoc, <- !Z.pow_add_r by (unfold ez; lia). f_equal; f_equal; f_equal; lia. }
  assert (UB : d <= 2 ^ 1128).
  { unfold d. assert (Zpos mm * 2 ^ (em + 1074) <= 2 ^ 53 * 2 ^ 1074).
    { apply Z.mul_le_mono_nonneg; [lia|lia|apply Z.pow_nonneg; lia|apply Z.pow_le_mono_r; lia]. }
    assert (0 <= Zpos mm * 2 ^ (em + 1074)) by (apply Z.mul_nonneg_nonneg; [lia|apply Z.pow_nonneg; lia]).
    change (2 ^ 1128) with (2 ^ 136 * unit). change (2 ^ 53 * 2 ^ 1074) with (2 ^ 135 * unit) in *.
    assert (0 < unit) by reflexivity. set (u := unit) in *. set (b := Zpos mm * 2 ^ (em + 1074)) in *. clearbody u b. clear - H H0 H1. lia. }
  assert (NV : forall p, Zpos p = Z.abs D -> Z.log2 (Zpos p) + 1 + ez <= 1000).
  { intros p EP. rewrite <- EP in ED. assert (Z.log2 (Zpos p * 2 ^ (ez + 1074)) <= Z.log2 (2 ^ 1128)) as HL by (rewrite ED; apply Z.log2_le_mono; exact UB).
    rewrite Z.log2_mul_pow2 in HL by (unfold ez; lia). rewrite Z.log2_pow2 in HL by lia. lia. }
  destruct D as [|p|p] eqn:EQ.
  - exfalso. cbn in ED. lia.
  - cbn [binary_normalize]. destruct (normal_V false p ez) as (m' & e' & HR & HC' & _ & HB); [unfold ez; lia|apply NV; reflexivity|].
    change (binary_round prec emax) with (binary_round 53 1024). rewrite HR. exists m', e'. split; [reflexivity|]. split; [exact HC'|]. cbn [Z.abs] in ED. rewrite ED in HB. exact HB.
  - cbn [binary_normalize]. destruct (normal_V true p ez) as (m' & e' & HR & HC' & _ & HB); [unfold ez; lia|apply NV; reflexivity|].
    change (binary_round prec emax) with (binary_round 53 1024). rewrite HR. exists m', e'. split; [reflexivity|]. split; [exact HC'|]. cbn [Z.abs] in ED. rewrite ED in HB. exact HB.
Qed.

(** being close to 1 *)
Lemma close_one : forall mm em, canonical mm em -> em <= 0 ->
  let v := Zpos mm * 2 ^ (em + 1074) in
  let d := Z.abs (2 ^ 82 * unit - v) in
  v <= 2 ^ 82 * unit + 2 ^ 30 * unit ->
  ((2 ^ 52 + 1) * d <= 2 ^ 52 * (Rt * unit) -> isclose (S754_finite false mm em) f_one = true) /\
  (2 ^ 52 * (Rt * unit) + 2 ^ 60 * unit < (2 ^ 52 - 1) * d -> isclose (S754_finite false mm em) f_one = false).
Proof.
  intros mm em HC HM v d HV. unfold isclose. assert (UP : 2 ^ 900 < unit) by reflexivity.
  assert (EQ : SFeqb (S754_finite false mm em) f_one = Z.eqb v (2 ^ 82 * unit)) by (unfold f_one; rewrite eqb_V by (exact HC || exact one_canonical); rewrite one_V; reflexivity).
  rewrite EQ. destruct (Z.eqb_spec v (2 ^ 82 * unit)) as [E1|N1].
  - split; [reflexivity|]. intro H. exfalso. unfold d in H. rewrite E1, Z.sub_diag in H. cbn [Z.abs] in H. rewrite Z.mul_0_r in H.
    set (u := unit) in *. clearbody u. clear - H UP. lia.
  - assert (DP : 0 < d) by (unfold d; lia). destruct (sub_one mm em HC HM DP) as (m' & e' & HR & HC' & HB). fold v in HB. fold d in HB.
    replace (match f_one with S754_infinity _ => false | _ => _ end) with
      (SFleb (SFabs (SFsub prec emax f_one (S754_finite false mm em))) (SFabs (SFmul prec emax rel_tol f_one)) ||
       SFleb (SFabs (SFsub prec emax f_one (S754_finite false mm em))) (SFabs (SFmul prec emax rel_tol (S754_finite false mm em)))) by reflexivity.
    rewrite HR. change (SFabs (SFmul prec emax rel_tol f_one)) with (S754_finite false 4835703278458517 (-82)).
    change (SFmul prec emax rel_tol (S754_finite false mm em)) with (bra false (Zpos (4835703278458517 * mm)) (-82 + em) loc_Exact).
    rewrite leb_V by (exact HC' || exact tol_canonical). change (Zpos 4835703278458517 * 2 ^ (-82 + 1074)) with (Rt * unit).
    set (x := Zpos m' * 2 ^ (e' + 1074)) in *. split; intro H.
    + replace (x <=? Rt * unit) with true; [reflexivity|]. symmetry. apply Z.leb_le. set (u := unit) in *. clearbody x d u. clear - H HB. lia.
    + replace (x <=? Rt * unit) with false.
      2:{ symmetry. apply Z.leb_gt. set (u := unit) in *. clearbody x d u. clear - H HB UP. lia. }
      cbn [orb]. destruct (times_tol mm em HC ltac:(lia)) as [HT HTV]. cbv zeta in HT, HTV. fold v in HTV.
      destruct HT as [->|(m & e & HT & HCT)]; [reflexivity|]. rewrite HT in *. cbn [SFabs]. rewrite leb_V by assumption. cbn [V] in HTV. fold x.
      apply Z.leb_gt. set (y := Zpos m * 2 ^ (e + 1074)) in *. set (u := unit) in *. clearbody x y d v u. clear - H HB HTV HV UP. lia.
Qed.

(** ** x % 1 *)

Lemma small_exponent : forall m e B, canonical m e -> Zpos m * 2 ^ (e + 1074) < 2 ^ B -> 0 <= B -> e + 1074 < B.
Proof.
  intros m e B HC H HB. apply canonical_low in HC. destruct HC as (L & _ & _). apply (Z.pow_lt_mono_r_iff 2); [lia|lia|].
  eapply Z.le_lt_trans; [|exact H]. assert (0 < 2 ^ (e + 1074)) by (apply Z.pow_pos_nonneg; lia). nia.
Qed.

Lemma fmod_one : forall s m e, canonical m e -> e < 0 ->
  let e0 := Z.min e (-52) in
  let r := (Zpos m * 2 ^ (e - e0)) mod 2 ^ (- e0) in
  0 < r -> exists mr er, fmod (S754_finite s m e) f_one = S754_finite s mr er /\ canonical mr er /\
    Zpos mr * 2 ^ (er + 1074) = r * 2 ^ (e0 + 1074).
Proof.
  intros s m e HC HE e0 r HR. pose proof (canonical_low m e HC) as (L1 & L2 & _).
  assert (RB : r < 2 ^ (- e0)) by (apply Z.mod_pos_bound; apply Z.pow_pos_nonneg; lia).
  unfold fmod, f_one. fold e0.
  replace (Zpos 4503599627370496 * 2 ^ (-52 - e0)) with (2 ^ (- e0)).
  2:{ change (Zpos 4503599627370496) with (2 ^ 52). rewrite <- Z.pow_add_r by lia. f_equal. lia. }
  fold r. destruct r as [|p|p] eqn:ER; try lia.
  assert (LR : Z.log2 (Zpos p) < 53).
  { apply Z.log2_lt_pow2; [lia|]. destruct (Z.le_gt_cases e (-52)) as [H|H].
    - assert (Zpos p <= Zpos m).
      { rewrite <- ER. unfold r. replace (e - e0) with 0 by lia. rewrite Z.mul_1_r. apply Z.mod_le; [lia|]. apply Z.pow_pos_nonneg; lia. }
      lia.
    - eapply Z.lt_trans; [exact RB|]. apply Z.pow_lt_mono_r; lia. }
  assert (LR2 : Z.log2 (Zpos p) < - e0) by (apply Z.log2_lt_pow2; lia).
  destruct (normal_V s p e0) as (m' & e' & HN & HC' & HX & _); [lia|lia|].
  exists m', e'. split; [|split; [exact HC'|apply HX; exact LR]].
  rewrite <- HN. destruct s; reflexivity.
Qed.

Lemma mod_one : forall (s : bool) m e, canonical m e -> e < 0 ->
  let e0 := Z.min e (-52) in
  let r := (Zpos m * 2 ^ (e - e0)) mod 2 ^ (- e0) in
  let t := r * 2 ^ (e0 + 1074) in
  let x := if s then 2 ^ 82 * unit - t else t in
  0 < r -> exists mm em, float_mod (S754_finite s m e) f_one = S754_finite false mm em /\ canonical mm em /\ em <= 0 /\
    2 ^ 52 * Z.abs (Zpos mm * 2 ^ (em + 1074) - x) <= x.
Proof.
  intros s m e HC HE e0 r t x HR. pose proof (canonical_low m e HC) as (L1 & _ & _).
  destruct (fmod_one s m e HC HE HR) as (mr & er & HF & HCr & HV). fold e0 r in HV. fold t in HV.
  assert (RB : r < 2 ^ (- e0)) by (apply Z.mod_pos_bound; apply Z.pow_pos_nonneg; lia).
  assert (TB : 0 < t < 2 ^ 1074).
  { unfold t. split; [apply Z.mul_pos_pos; [exact HR|apply Z.pow_pos_nonneg; lia]|].
    assert (EP : 2 ^ 1074 = 2 ^ (- e0) * 2 ^ (e0 + 1074)) by (rewrite <- Z.pow_add_r by lia; f_equal; lia).
    rewrite EP. apply Z.mul_lt_mono_pos_r; [apply Z.pow_pos_nonneg; lia|exact RB]. }
  assert (ERB : er + 1074 < 1074) by (apply (small_exponent mr er 1074 HCr); [rewrite HV; apply TB|lia]).
  unfold float_mod. rewrite HF. cbn [is_zero]. change (is_neg f_one) with false. destruct s; cbn [is_neg Bool.eqb].
  - pose proof (canonical_low mr er HCr) as (LR & _ & _). unfold f_one. cbn [SFadd cond_Zopp]. set (ez := Z.min er (-52)).
    rewrite !shl_align_mul by (unfold ez; lia). set (D := - (Zpos mr * 2 ^ (er - ez)) + Zpos 4503599627370496 * 2 ^ (-52 - ez)).
    assert (ED : D * 2 ^ (ez + 1074) = x).
    { unfold D, x. rewrite Z.mul_add_distr_r, Z.mul_opp_l. rewrite <- HV, <- one_V. rewrite <- !Z.mul_assoc, <- !Z.pow_add_r by (unfold ez; lia).
      replace (er - ez + (ez + 1074)) with (er + 1074) by lia. replace (-52 - ez + (ez + 1074)) with (-52 + 1074) by lia. ring. }
    assert (XP : 0 < x < 2 ^ 1074) by (unfold x; change (2 ^ 82 * unit) with (2 ^ 1074); lia).
    assert (PZ : 0 < 2 ^ (ez + 1074)) by (apply Z.pow_pos_nonneg; unfold ez; lia).
    assert (DP : 0 < D).
    { destruct XP as [XP _]. rewrite <- ED in XP. clear - XP PZ. nia. }
    clearbody D x. destruct D as [|p|p]; [discriminate DP| |discriminate DP].
    cbn [binary_normalize]. destruct (normal_V false p ez) as (m' & e' & HN & HC' & _ & HB).
    + unfold ez; lia.
    + assert (HL : Z.log2 (Zpos p * 2 ^ (ez + 1074)) <= Z.log2 (2 ^ 1074)) by (rewrite ED; apply Z.log2_le_mono; lia).
      rewrite Z.log2_mul_pow2 in HL by (unfold ez; lia). rewrite Z.log2_pow2 in HL by lia. lia.
    + exists m', e'. change (binary_round prec emax) with (binary_round 53 1024). rewrite HN. split; [reflexivity|]. split; [exact HC'|].
      rewrite ED in HB. split; [|exact HB].
      assert (e' + 1074 < 1075); [|lia]. apply (small_exponent m' e' 1075 HC'); [|lia]. change (2 ^ 1075) with (2 * 2 ^ 1074).
      set (N := 2 ^ 1074) in *. set (v := Zpos m' * 2 ^ (e' + 1074)) in *. clearbody N v. clear - HB XP. lia.
  - exists mr, er. split; [reflexivity|]. split; [exact HCr|]. split; [lia|]. rewrite HV. unfold x. rewrite Z.sub_diag.
    clear - TB. set (N := 2 ^ 1074) in *. clearbody N t. lia.
Qed.

(** ** Together: which floats Whole takes, by the distance [del]/[U] to the next integer above *)
Lemma near_int : forall (s : bool) m e, canonical m e -> e < 0 ->
  let e0 := Z.min e (-52) in
  let U := 2 ^ (- e0) in
  let r := (Zpos m * 2 ^ (e - e0)) mod U in
  let del := if s then r else U - r in
  0 < r ->
  let x := float_mod (S754_finite s m e) f_one in
  (10 ^ 15 * del <= 999999 * U -> isclose x (S754_zero false) || isclose x f_one = true) /\
  (1000001 * U < 10 ^ 15 * del -> isclose x (S754_zero false) || isclose x f_one = false).
Proof.
  intros s m e HC HE e0 U r del HR x. pose proof (canonical_low m e HC) as (L1 & _ & _).
  destruct (mod_one s m e HC HE HR) as (mm & em & HX & HCm & HEM & HB). fold e0 in HB. fold U in HB. fold r in HB. fold x in HX. rewrite HX.
  rewrite not_close_zero by (assumption || lia). cbn [orb].
  set (P := 2 ^ (e0 + 1074)) in *. assert (PP : 0 < P) by (apply Z.pow_pos_nonneg; lia).
  assert (UP : U * P = 2 ^ 82 * unit).
  { change (2 ^ 82 * unit) with (2 ^ 1074). unfold U, P. rewrite <- Z.pow_add_r by lia. f_equal. lia. }
  assert (RB : r < U) by (apply Z.mod_pos_bound; apply Z.pow_pos_nonneg; lia).
  assert (RP : r * P < 2 ^ 82 * unit) by (rewrite <- UP; apply Z.mul_lt_mono_pos_r; assumption).
  assert (RP0 : 0 < r * P) by (apply Z.mul_pos_pos; assumption).
  assert (DP : del * P = if s then r * P else 2 ^ 82 * unit - r * P) by (unfold del; destruct s; [reflexivity|rewrite <- UP; ring]).
  assert (UN : 2 ^ 900 < unit) by reflexivity.
  destruct (close_one mm em HCm HEM) as [CT CF].
  { set (u := unit) in *. set (v := Zpos mm * 2 ^ (em + 1074)) in *. set (t := r * P) in *. clearbody u v t. clear - HB RP RP0 UN. destruct s; lia. }
  split; intro H.
  - apply CT. assert (H' : 10 ^ 15 * (del * P) <= 999999 * (2 ^ 82 * unit)) by (rewrite <- UP; rewrite !Z.mul_assoc; apply Z.mul_le_mono_nonneg_r; lia).
    rewrite DP in H'. set (u := unit) in *. set (v := Zpos mm * 2 ^ (em + 1074)) in *. set (t := r * P) in *. clearbody u v t. clear - HB RP RP0 H'. destruct s; lia.
  - apply CF. assert (H' : 1000001 * (2 ^ 82 * unit) < 10 ^ 15 * (del * P)) by (rewrite <- UP; rewrite !Z.mul_assoc; apply Z.mul_lt_mono_pos_r; lia).
    rewrite DP in H'. set (u := unit) in *. set (v := Zpos mm * 2 ^ (em + 1074)) in *. set (t := r * P) in *. clearbody u v t. clear - HB RP RP0 H'. destruct s; lia.
Qed.

(** ** The same, with the float's value as a rational *)
Lemma valid_canonical : forall s m e, valid_binary 53 1024 (S754_finite s m e) = true -> canonical m e.
Proof.
  intros s m e H. cbn in H. unfold bounded, canonical_mantissa in H. apply andb_prop in H. destruct H as [H _].
  apply Zeq_bool_eq in H. unfold canonical. rewrite <- digits_log2. exact H.
Qed.

Lemma value_scaled : forall s m e q, e < 0 -> float_value (S754_finite s m e) = Some q ->
  let e0 := Z.min e (-52) in
  (q * inject_Z (2 ^ (- e0)) == inject_Z ((if s then Zneg m else Zpos m) * 2 ^ (e - e0)))%Q.
Proof.
  intros s m e q HE V e0. destruct e as [|p|p]; try lia. injection V as <-. set (z := if s then Z.neg m else Z.pos m).
  assert (EP : 2 ^ (- e0) = 2 ^ Zpos p * 2 ^ (Zneg p - e0)) by (rewrite <- Z.pow_add_r by lia; f_equal; lia).
  rewrite EP. rewrite !inject_Z_mult. assert (0 < 2 ^ Zpos p) by (apply Z.pow_pos_nonneg; lia).
  rewrite Qmult_assoc. apply Qmult_comp; [|reflexivity]. rewrite Qmult_comm. apply Qmult_div_r.
  intro H0. unfold Qeq in H0. cbn -[Z.pow] in H0. lia.
Qed.

Lemma ceiling_scaled : forall q U c, 0 < U -> (q * inject_Z U == inject_Z c)%Q ->
  let k := Qceiling q in
  0 <= k * U - c < U /\
  forall a b, (inject_Z k - q <= a # b)%Q <-> Zpos b * (k * U - c) <= a * U.
Proof.
  intros q U c HU E k. destruct q as [n d]. unfold Qeq in E. cbn -[Z.mul] in E. rewrite ?Z.mul_1_r in E.
  pose proof (Qle_ceiling (n # d)) as B1. pose proof (Qceiling_lt (n # d)) as B2. fold k in B1, B2.
  unfold Qle, Qlt in B1, B2. cbn -[Z.mul Z.sub] in B1, B2. rewrite Z.mul_1_r in B1, B2.
  assert (E' : n * U = c * Zpos d) by lia. clear E. clearbody k. split.
  - split; nia.
  - intros a b. unfold Qle. cbn -[Z.mul]. rewrite ?Pos2Z.inj_mul, ?Z.mul_1_l, ?Z.mul_1_r. split; intro H.
    + assert (U * ((k * Zpos d + - n) * Zpos b) <= U * (a * Zpos d)) by (apply Z.mul_le_mono_nonneg_l; lia).
      apply (Z.mul_le_mono_pos_r _ _ (Zpos d)); [lia|]. nia.
    + apply (Z.mul_le_mono_pos_r _ _ U); [lia|].
      assert (Zpos b * (k * U - c) * Zpos d <= a * U * Zpos d) by (apply Z.mul_le_mono_nonneg_r; lia). nia.
Qed.

Lemma near_value : forall f q, valid_binary 53 1024 f = true -> float_value f = Some q ->
  let x := float_mod f f_one in
  ~ (exists z, q == inject_Z z)%Q ->
  ((inject_Z (Qceiling q) - q <= 999999 # (10 ^ 15))%Q -> isclose x (S754_zero false) || isclose x f_one = true) /\
  ((1000001 # (10 ^ 15) < inject_Z (Qceiling q) - q)%Q -> isclose x (S754_zero false) || isclose x f_one = false).
Proof.
  intros f q HV V x NI. destruct f as [s|s| |s m e]; try discriminate V.
  { exfalso. apply NI. exists 0. injection V as <-. reflexivity. }
  assert (HE : e < 0).
  { destruct e as [|p|p]; [| |reflexivity]; exfalso; apply NI; injection V as <-; eexists; reflexivity. }
  pose proof (valid_canonical s m e HV) as HC. pose proof (canonical_low m e HC) as (L1 & _ & _).
  pose proof (value_scaled s m e q HE V) as HS. cbv zeta in HS. set (e0 := Z.min e (-52)) in *.
  assert (HU : 0 < 2 ^ (- e0)) by (apply Z.pow_pos_nonneg; lia).
  destruct (ceiling_scaled q _ _ HU HS) as [DB DI]. set (k := Qceiling q) in *. set (U := 2 ^ (- e0)) in *.
  set (M := Zpos m * 2 ^ (e - e0)) in *.
  set (del := k * U - (if s then Zneg m else Zpos m) * 2 ^ (e - e0)) in *.
  assert (D0 : del <> 0).
  { intro D0. apply NI. exists k. assert (HK : (q * inject_Z U == inject_Z k * inject_Z U)%Q).
    { rewrite HS, <- inject_Z_mult. unfold del in D0. assert (EQ : (if s then Zneg m else Zpos m) * 2 ^ (e - e0) = k * U) by lia. rewrite EQ. reflexivity. }
    apply Qmult_inj_r in HK; [exact HK|]. intro H0. unfold Qeq in H0. cbn -[Z.mul] in H0. lia. }
  assert (ER : M mod U = if s then del else U - del).
  { destruct s; symmetry.
    - apply (Z.mod_unique M U (- k)); [left; lia|]. unfold del, M. change (Zneg m) with (- Zpos m). rewrite Z.mul_opp_l. ring.
    - apply (Z.mod_unique M U (k - 1)); [left; lia|]. unfold del, M. ring. }
  pose proof (near_int s m e HC HE) as NR. cbv zeta in NR. fold e0 in NR. fold U in NR. fold M in NR. rewrite ER in NR. fold x in NR.
  assert (ED : (if s then (if s then del else U - del) else U - (if s then del else U - del)) = del) by (destruct s; lia).
  rewrite ED in NR. destruct NR as [NT NF]; [destruct s; lia|]. split; intro H.
  - apply NT. apply DI in H. exact H.
  - apply NF. apply Qlt_not_le in H. apply Z.nle_gt. intro H'. apply H. apply DI. exact H'.
Qed.
