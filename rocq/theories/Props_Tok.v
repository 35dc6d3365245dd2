(** Props_Tok.v -- property theorems: the built-in coercers and validators (records/fillers/validators.py, builtin_validators.py, coercers.py, std_fillers.py)
    Each theorem is closed by the lemma of the same statement in Tok_main.v; the examples
    show that concrete, non-trivial cases meet the hypotheses. *)

From Coq Require Import QArith Qround Lqa SpecFloat.
From Verif Require Import Base Py Filler Spec_Filler Runtime Demo Tokens Spec_Tokens DemoTok.
Open Scope Z_scope.
Open Scope string_scope.
Open Scope list_scope.

From Verif Require Import Tok_main.

(** C63: Clamp(ge, le) gives a value between the bounds: the value itself if it lies between
    them, the bound it crosses otherwise; an omitted bound clamps nothing; nothing else
    happens. *)
Theorem c63_clamp : forall {obj ty W} (X : Ops obj ty W) D lt ge le v w w0 w1,
  totally_ordered X D lt -> D v -> bound_in D ge -> bound_in D le ->
  clamp_new X ge le w0 = (Ok tt, w1) ->
  exists r, clamp X ge le v w = (Ok r, w) /\
    above lt true ge r /\ below lt true le r /\
    (above lt true ge v -> below lt true le v -> r = v) /\
    (forall a, ge = Some a -> lt v a = true -> r = a) /\
    (forall b, le = Some b -> lt b v = true -> r = b).
Proof. exact (@c63_clamp_proof). Qed.
Print Assumptions c63_clamp.

(** C63: a Clamp whose lower bound is greater than its upper bound is refused, others are
    not. *)
Theorem c63_refused : forall {obj ty W} (X : Ops obj ty W) D lt ge le w,
  totally_ordered X D lt -> bound_in D ge -> bound_in D le ->
  (forall a b, ge = Some a -> le = Some b -> lt b a = true ->
     exists m, clamp_new X ge le w = (Raise (mkexc ValueError m), w)) /\
  ((forall a b, ge = Some a -> le = Some b -> lt b a = false) -> clamp_new X ge le w = (Ok tt, w)).
Proof. exact (@c63_refused_proof). Qed.
Print Assumptions c63_refused.

(** C63: clamping twice is clamping once, and clamping respects the order. *)
Theorem c63_idempotent_monotone : forall {obj ty W} (X : Ops obj ty W) D lt ge le w w',
  totally_ordered X D lt -> bound_in D ge -> bound_in D le -> clamp_new X ge le w = (Ok tt, w') ->
  (forall v, D v -> exists r, clamp X ge le v w = (Ok r, w) /\ clamp X ge le r w = (Ok r, w)) /\
  (forall u v, D u -> D v -> lt v u = false ->
     exists r s, clamp X ge le u w = (Ok r, w) /\ clamp X ge le v w = (Ok s, w) /\ lt s r = false).
Proof. exact (@c63_idempotent_monotone_proof). Qed.
Print Assumptions c63_idempotent_monotone.

(** C64: on ints and Fractions, Cyclic(lo, hi) with lo < hi gives the one value of [lo, hi)
    that differs from the argument by a multiple of hi - lo; a value of [lo, hi) is given
    back as it is, so that doing it twice is doing it once. *)
Theorem c64_cyclic : forall {obj ty W} (X : Ops obj ty W) D val lo hi v w,
  exact_numbers X D val -> D lo -> D hi -> D v -> (val lo < val hi)%Q ->
  exists r, cyclic X lo hi v w = (Ok r, w) /\ D r /\
    (val lo <= val r)%Q /\ (val r < val hi)%Q /\ congruent (val hi - val lo) (val r) (val v) /\
    ((val lo <= val v)%Q -> (val v < val hi)%Q -> r = v) /\
    cyclic X lo hi r w = (Ok r, w) /\
    forall q, (val lo <= q)%Q -> (q < val hi)%Q -> congruent (val hi - val lo) q (val v) -> (q == val r)%Q.
Proof. exact (@c64_cyclic_proof). Qed.
Print Assumptions c64_cyclic.

(** C64, beside it: an empty domain raises ZeroDivisionError for every value, and exchanged
    bounds give a value of (hi, lo]. *)
Theorem c64_wrong_bounds : forall {obj ty W} (X : Ops obj ty W) D val lo hi v w,
  exact_numbers X D val -> D lo -> D hi -> D v ->
  ((val lo == val hi)%Q -> exists m, cyclic X lo hi v w = (Raise (mkexc ZeroDivisionError m), w)) /\
  ((val hi < val lo)%Q -> exists r, cyclic X lo hi v w = (Ok r, w) /\ (val hi < val r)%Q /\ (val r <= val lo)%Q).
Proof. exact (@c64_wrong_bounds_proof). Qed.
Print Assumptions c64_wrong_bounds.

(** C64 does not hold for floats: -1e-20 is mapped to the upper bound itself, which is not a
    value of [0, 360), because the last addition rounds. *)
Theorem c64_float_refuted :
  exists lo hi v : spec_float,
    float_value lo = Some 0%Q /\ float_value v <> None /\ SFltb lo hi = true /\ SFltb v hi = true /\
    cyclic float_ops lo hi v tt = (Ok hi, tt).
Proof. exact (@c64_float_refuted_proof). Qed.
Print Assumptions c64_float_refuted.

(** C63 needs an order that is total: every Clamp lets every object pass that is neither less
    nor greater than its bounds, *)
Theorem c63_unordered_refuted : forall {obj ty W} (X : Ops obj ty W) ge le v w,
  (forall a c, op_cmp X c a v w = (Ok false, w)) ->
  clamp X ge le v w = (Ok v, w).
Proof. exact (@c63_unordered_refuted_proof). Qed.
Print Assumptions c63_unordered_refuted.

(** e.g. nan, which is not between any bounds. *)
Theorem c63_nan_refuted : forall lo hi : spec_float,
  clamp float_ops (Some lo) (Some hi) S754_nan tt = (Ok S754_nan, tt) /\
  SFleb lo S754_nan = false /\ SFleb S754_nan hi = false.
Proof. exact (@c63_nan_refuted_proof). Qed.
Print Assumptions c63_nan_refuted.

(** the bounds 0 and 1 *)
Example c63_nan_case :
  exists lo hi v : spec_float,
    clamp_new float_ops (Some lo) (Some hi) tt = (Ok tt, tt) /\
    clamp float_ops (Some lo) (Some hi) v tt = (Ok v, tt) /\ SFleb lo v = false /\ SFleb v hi = false.
Proof. exists (S754_zero false), f_one, S754_nan. repeat split. Qed.

(** C65: Within accepts exactly the values on the right side of both bounds, each bound being
    inclusive or not as declared and an omitted bound excluding nothing; an accepted value is
    returned as it is, any other raises the declared error. *)
Theorem c65_within : forall {obj ty W} (X : Ops obj ty W) D lt ge le g_eq l_eq a v w,
  totally_ordered X D lt -> D v -> bound_in D ge -> bound_in D le -> as_warn a = WarnFalse ->
  (above lt g_eq ge v /\ below lt l_eq le v -> within X ge le g_eq l_eq a v w = (Ok v, w)) /\
  (~ (above lt g_eq ge v /\ below lt l_eq le v) -> within X ge le g_eq l_eq a v w = (Raise (assert_exc a), w)).
Proof. exact (@c65_within_proof). Qed.
Print Assumptions c65_within.

(** C65: a Within whose lower bound is greater than the upper one, or equal to it without both
    being inclusive, is refused when it is created, and could not accept anything; no other
    is refused. *)
Theorem c65_refused : forall {obj ty W} (X : Ops obj ty W) D lt ge le g_eq l_eq w,
  totally_ordered X D lt -> bound_in D ge -> bound_in D le ->
  let empty := exists a b, ge = Some a /\ le = Some b /\ (lt b a = true \/ lt a b = false /\ (g_eq = false \/ l_eq = false)) in
  (empty -> (exists m, within_new X ge le g_eq l_eq w = (Raise (mkexc ValueError m), w)) /\
            forall v, D v -> ~ (above lt g_eq ge v /\ below lt l_eq le v)) /\
  (~ empty -> within_new X ge le g_eq l_eq w = (Ok tt, w)).
Proof. exact (@c65_refused_proof). Qed.
Print Assumptions c65_refused.

(** C65 without any assumption about the order (nan, sets, ...): what Within returned is its
    argument, and both comparisons said yes. *)
Theorem c65_answers : forall {obj ty W} (X : Ops obj ty W) ge le g_eq l_eq a v w r w',
  as_warn a = WarnFalse -> within X ge le g_eq l_eq a v w = (Ok r, w') ->
  r = v /\
  (forall x, ge = Some x -> exists w1 w2, op_cmp X (if g_eq then CLe else CLt) x v w1 = (Ok true, w2)) /\
  (forall x, le = Some x -> exists w1 w2, op_cmp X (if l_eq then CGe else CGt) x v w1 = (Ok true, w2)).
Proof. exact (@c65_answers_proof). Qed.
Print Assumptions c65_answers.

(** C74: an assertion validator asks its condition once.  If that holds, the argument itself
    is returned; if not, the configured error is raised, or reported as one warning before
    the argument itself is returned.  Whatever the condition or the warning raises is passed
    on. *)
Theorem c74_assert : forall {obj ty W} (X : Ops obj ty W) a check v w,
  let error (warned : bool) := match as_err a with ErrExc e => e | ErrText s => mkexc (if warned then UserWarning else ValueError) s end in
  let warned target w1 := match op_warn X target (error true) w1 with (Ok _, w2) => (Ok v, w2) | (Raise e, w2) => (Raise e, w2) end in
  assert_inner X a check v w =
  match check v w with
  | (Raise e, w1) => (Raise e, w1)
  | (Ok true, w1) => (Ok v, w1)
  | (Ok false, w1) => match as_warn a with
                      | WarnFalse => (Raise (error false), w1)
                      | WarnTrue => warned None w1
                      | WarnLogger l => warned (Some l) w1
                      end
  end.
Proof. exact (@c74_assert_proof). Qed.
Print Assumptions c74_assert.

(** C74: so if warnings are not errors and the condition gives an answer, a validator that
    warns never raises. *)
Theorem c74_warn_never_raises : forall {obj ty W} (X : Ops obj ty W) a check v w,
  as_warn a <> WarnFalse ->
  (forall target e w, exists w', op_warn X target e w = (Ok tt, w')) ->
  (exists b w1, check v w = (Ok b, w1)) ->
  exists w', assert_inner X a check v w = (Ok v, w').
Proof. exact (@c74_warn_never_raises_proof). Qed.
Print Assumptions c74_warn_never_raises.

(** C74: Within, FullMatch, Truth and AssertCallValidation never change the value. *)
Theorem c74_builtin : forall {obj ty W} (X : Ops obj ty W) ge le g_eq l_eq m func a,
  asserting_callback (within X ge le g_eq l_eq a) /\ asserting_callback (full_match X m a) /\
  asserting_callback (truth_validator X a) /\ asserting_callback (assert_call X func a).
Proof. exact (@c74_builtin_proof). Qed.
Print Assumptions c74_builtin.

(** C67: without an explicit length every non-negative integer, and every integer if signed, is
    converted to bytes that int.from_bytes turns back into it. *)
Theorem c67_round_trip : forall big signed v, signed = true \/ 0 <= v ->
  exists l, whole_bytes None big signed v = Ok l /\ Forall is_byte l /\ from_bytes big signed l = v.
Proof. exact (@c67_round_trip_proof). Qed.
Print Assumptions c67_round_trip.

(** C67: the unsigned form uses as few bytes as possible; a negative integer is refused by
    it. *)
Theorem c67_unsigned : forall big v,
  (forall l, whole_bytes None big false v = Ok l -> forall n, 0 <= n -> fits_in n false v -> Z.of_nat (List.length l) <= n) /\
  (v < 0 -> exists m, whole_bytes None big false v = Raise (mkexc OverflowError m)).
Proof. exact (@c67_unsigned_proof). Qed.
Print Assumptions c67_unsigned.

(** C67: with an explicit length exactly the integers that fit are converted, to that many
    bytes, and they can be recovered. *)
Theorem c67_explicit_length : forall n big signed v, 0 <= n ->
  (fits_in n signed v -> exists l, whole_bytes (Some n) big signed v = Ok l /\ Z.of_nat (List.length l) = n /\
                               Forall is_byte l /\ from_bytes big signed l = v) /\
  (~ fits_in n signed v -> exists m, whole_bytes (Some n) big signed v = Raise (mkexc OverflowError m)).
Proof. exact (@c67_explicit_length_proof). Qed.
Print Assumptions c67_explicit_length.

(** C67: the storage type's constructor is called once, with bytes that stand for the given
    integer; anything but an integer is a TypeError. *)
Theorem c67_coercer : forall {obj ty W} (X : Ops obj ty W) int_value bytes_obj big signed o v w,
  (forall z, int_value v = Some z -> signed = true \/ 0 <= z ->
     exists l, bytes_coercer X int_value bytes_obj None big signed o v w = op_make X o [bytes_obj l] [] w /\
               Forall is_byte l /\ from_bytes big signed l = z) /\
  (int_value v = None -> exists m, bytes_coercer X int_value bytes_obj None big signed o v w = (Raise (mkexc TypeError m), w)).
Proof. exact (@c67_coercer_proof). Qed.
Print Assumptions c67_coercer.

(** -200 signed, big endian; and 70000 unsigned, little endian *)
Example c67_case : whole_bytes None true true (-200) = Ok [255; 56] /\ from_bytes true true [255; 56] = -200 /\
  whole_bytes None false false 70000 = Ok [112; 17; 1] /\ fits_in 3 false 70000 /\ ~ fits_in 2 false 70000 /\
  whole_bytes (Some 2) false false 70000 = Raise (mkexc OverflowError "int too big to convert").
Proof. repeat split; try reflexivity; try (vm_compute; discriminate). intros [_ H]. vm_compute in H. discriminate. Qed.

(** C66 for int, Fraction and other rationals: the storage type is given exactly the integer
    the number is equal to; a number that is no integer is a TypeError. *)
Theorem c66_rational_partial : forall {obj ty W} (X : Ops obj ty W) number_of int_obj float_obj args kw o v n d w,
  number_of v = NRational n d -> Z.gcd n (Zpos d) = 1 ->
  (forall z, (n # d == inject_Z z)%Q -> whole X number_of int_obj float_obj args kw o v w = op_make X o (int_obj z :: args) kw w) /\
  ((forall z, ~ (n # d == inject_Z z)%Q) -> exists m, whole X number_of int_obj float_obj args kw o v w = (Raise (mkexc TypeError m), w)).
Proof. exact (@c66_rational_partial_proof). Qed.
Print Assumptions c66_rational_partial.

(** C66 for floats: one that is an integer is passed to the storage type as it is, as is the
    real part of a complex number without imaginary part; inf, nan and everything that is no
    number are TypeErrors. *)
Theorem c66_float_partial : forall {obj ty W} (X : Ops obj ty W) number_of int_obj float_obj args kw o v w,
  (forall f q z, number_of v = NFloat f -> float_value f = Some q -> (q == inject_Z z)%Q ->
     whole X number_of int_obj float_obj args kw o v w = op_make X o (v :: args) kw w) /\
  (forall f q z s, number_of v = NComplex f (S754_zero s) -> float_value f = Some q -> (q == inject_Z z)%Q ->
     whole X number_of int_obj float_obj args kw o v w = op_make X o (float_obj f :: args) kw w) /\
  ((exists f, number_of v = NFloat f /\ float_value f = None) \/
   (exists f i, number_of v = NComplex f i /\ (float_value f = None \/ ~ exists s, i = S754_zero s)) \/ number_of v = NOther ->
     exists m, whole X number_of int_obj float_obj args kw o v w = (Raise (mkexc TypeError m), w)).
Proof. exact (@c66_float_partial_proof). Qed.
Print Assumptions c66_float_partial.

(** C66 for all finite floats: Whole takes one that is an integer, or is no more than about
    1e-9 below an integer, and refuses every other.  (Between 0.999999e-9 and 1.000001e-9,
    the roundings decide.)  The same goes for the real part of a complex number without
    imaginary part. *)
Theorem c66_float_near_partial : forall {obj ty W} (X : Ops obj ty W) number_of int_obj float_obj args kw o v w f q,
  valid_binary 53 1024 f = true -> float_value f = Some q ->
  (number_of v = NFloat f ->
     ((inject_Z (Qceiling q) - q <= 999999 # (10 ^ 15))%Q ->
        whole X number_of int_obj float_obj args kw o v w = op_make X o (v :: args) kw w) /\
     ((1000001 # (10 ^ 15) < inject_Z (Qceiling q) - q)%Q ->
        exists m, whole X number_of int_obj float_obj args kw o v w = (Raise (mkexc TypeError m), w))) /\
  (forall s, number_of v = NComplex f (S754_zero s) ->
     ((inject_Z (Qceiling q) - q <= 999999 # (10 ^ 15))%Q ->
        whole X number_of int_obj float_obj args kw o v w = op_make X o (float_obj f :: args) kw w) /\
     ((1000001 # (10 ^ 15) < inject_Z (Qceiling q) - q)%Q ->
        exists m, whole X number_of int_obj float_obj args kw o v w = (Raise (mkexc TypeError m), w))).
Proof. exact (@c66_float_near_partial_proof). Qed.
Print Assumptions c66_float_near_partial.

(** 2.9999999999 is 1e-10 below 3; 3.0000000001 and 2.99999999 are further from the next integer *)
Example c66_near_case :
  let near := S754_finite false 6755399440830564 (-51) in
  let over := S754_finite false 6755399441280924 (-51) in
  let far := S754_finite false 6755399418537541 (-51) in
  valid_binary 53 1024 near = true /\ valid_binary 53 1024 over = true /\ valid_binary 53 1024 far = true /\
  exists a b c, float_value near = Some a /\ float_value over = Some b /\ float_value far = Some c /\
    (inject_Z (Qceiling a) - a <= 999999 # (10 ^ 15))%Q /\
    (1000001 # (10 ^ 15) < inject_Z (Qceiling b) - b)%Q /\ (1000001 # (10 ^ 15) < inject_Z (Qceiling c) - c)%Q.
Proof.
  intros near over far. split; [reflexivity|]. split; [reflexivity|]. split; [reflexivity|].
  do 3 eexists. split; [reflexivity|]. split; [reflexivity|]. split; [reflexivity|].
  split; [vm_compute; discriminate|]. split; vm_compute; reflexivity.
Qed.

(** C66 does not hold for floats: 2.9999999999 is taken for a whole number, and becomes 2;
    -1e-20, which is not whole either, becomes 0. *)
Theorem c66_float_refuted :
  (exists f q, float_value f = Some q /\ (2 < q)%Q /\ (q < 3)%Q /\
     whole number_ops (fun n => n) (fun z => NRational z 1) NFloat [] [] (OTy tt) (NFloat f) tt = (Ok (NRational 2 1), tt)) /\
  (exists f q, float_value f = Some q /\ (-1 < q)%Q /\ (q < 0)%Q /\
     whole number_ops (fun n => n) (fun z => NRational z 1) NFloat [] [] (OTy tt) (NFloat f) tt = (Ok (NRational 0 1), tt)).
Proof. exact (@c66_float_refuted_proof). Qed.
Print Assumptions c66_float_refuted.

(** 8.0 is whole; 0.5 and 3/2 are not *)
Example c66_case :
  float_value (S754_finite false 4503599627370496 (-49)) = Some (inject_Z 4503599627370496 / inject_Z (2 ^ 49))%Q /\
  (inject_Z 4503599627370496 / inject_Z (2 ^ 49) == inject_Z 8)%Q /\
  let whole := whole number_ops (fun n => n) (fun z => NRational z 1) NFloat [] [] (OTy tt) in
  whole (NFloat (S754_finite false 4503599627370496 (-49))) tt = (Ok (NRational 8 1), tt) /\
  whole (NComplex (S754_finite false 4503599627370496 (-49)) (S754_zero false)) tt = (Ok (NRational 8 1), tt) /\
  whole (NFloat (S754_finite false 4503599627370496 (-53))) tt = (Raise (mkexc TypeError ""), tt) /\
  whole (NRational 3 2) tt = (Raise (mkexc TypeError ""), tt).
Proof. repeat split; vm_compute; reflexivity. Qed.

(** C69: MapCoercion gives the value its first map has for the argument; else what calling
    the factory of the second map gives; else a TypeError.  Nothing else is called. *)
Theorem c69_map : forall {obj ty W} (X : Ops obj ty W) vm fm value factory v w,
  looks_up vm value -> looks_up fm factory ->
  map_coercion X vm fm v w =
  match value v, factory v with
  | Some x, _ => (Ok x, w)
  | None, Some f => op_call X f [] [] w
  | None, None => (Raise (mkexc TypeError ""), w)
  end.
Proof. exact (@c69_map_proof). Qed.
Print Assumptions c69_map.

(** C69: an argument that the first map cannot look up, an unhashable one for instance, gives
    that error, whatever the second map holds. *)
Theorem c69_unhashable : forall {obj ty W} (X : Ops obj ty W) m fm v w e w',
  mp_true m = true -> mp_in m v w = (Raise e, w') -> map_coercion X (Some m) fm v w = (Raise e, w').
Proof. exact (@c69_unhashable_proof). Qed.
Print Assumptions c69_unhashable.

Example c69_case : looks_up (Some (demo_map demo_value)) demo_value /\ looks_up (Some (demo_map demo_factory)) demo_factory /\
  let m := map_coercion demo_ops (Some (demo_map demo_value)) (Some (demo_map demo_factory)) in
  m (DInt 1) st0 = (Ok (DStr "one"), st0) /\ m (DInt 2) st0 = (Ok (DInt 0), st0) /\ m (DInt 3) st0 = (Raise (mkexc TypeError ""), st0).
Proof.
  split; [|split; [|repeat split]]; (split; [discriminate|]); intros v w; (split; [reflexivity|]); intros x E; cbn; rewrite E; reflexivity.
Qed.

(** C71 for Loose: the constructor of the storage type is called with the argument, and, if
    the coercer is constrained to some classes, only if it is an instance of one of them. *)
Theorem c71_loose_partial : forall {obj ty W} (P : Py obj ty W) (X : Ops obj ty W) args kw o v w,
  loose P X None args kw o v w = op_make X o (v :: args) kw w /\
  forall ts, ts <> [] ->
    (instance_of_one P ts v -> loose P X (Some ts) args kw o v w = op_make X o (v :: args) kw w) /\
    (~ instance_of_one P ts v -> exists m, loose P X (Some ts) args kw o v w = (Raise (mkexc TypeError m), w)).
Proof. exact (@c71_loose_partial_proof). Qed.
Print Assumptions c71_loose_partial.

(** C71 does not hold for Loose.constrain(()): constrained to no class at all, it accepts
    every argument. *)
Theorem c71_loose_refuted : forall {obj ty W} (P : Py obj ty W) (X : Ops obj ty W) args kw o v w,
  ~ instance_of_one P [] v /\ loose P X (Some []) args kw o v w = op_make X o (v :: args) kw w.
Proof. exact (@c71_loose_refuted_proof). Qed.
Print Assumptions c71_loose_refuted.

(** the number 5 *)
Example c71_loose_case :
  exists (v : dobj) r, ~ instance_of_one demo0 [] v /\ loose demo0 demo_ops (Some []) [] [] (OTy TInt) v st0 = (Ok r, st0).
Proof. exists (DInt 5), (DInt 5). split; [|reflexivity]. intros (t & [] & _). Qed.

(** C71 for LooseUnpack: the argument is iterated once; the constructor is called with what it
    holds if these are as many objects as there are classes, each an instance of its class
    (for one class and an ellipsis: all of them instances of it), otherwise it is not called. *)
Theorem c71_unpack : forall {obj ty W} (P : Py obj ty W) (X : Ops obj ty W) args kw o v w vs w1,
  op_tuple X v w = (Ok vs, w1) ->
  loose_unpack P X UnpackFree args kw o v w = op_make X o (vs ++ args) kw w1 /\
  (forall tcs,
     (Forall2 (instance_of_one P) tcs vs -> loose_unpack P X (UnpackEach tcs) args kw o v w = op_make X o (vs ++ args) kw w1) /\
     (~ Forall2 (instance_of_one P) tcs vs -> exists m, loose_unpack P X (UnpackEach tcs) args kw o v w = (Raise (mkexc TypeError m), w1))) /\
  (forall ts,
     (Forall (instance_of_one P ts) vs -> loose_unpack P X (UnpackAll ts) args kw o v w = op_make X o (vs ++ args) kw w1) /\
     (~ Forall (instance_of_one P ts) vs -> exists m, loose_unpack P X (UnpackAll ts) args kw o v w = (Raise (mkexc TypeError m), w1))).
Proof. exact (@c71_unpack_proof). Qed.
Print Assumptions c71_unpack.

(** C71 for LooseUnpackMap, and an argument whose items() and keyword unpacking agree: the
    constructor is called with its items as keywords; under a constraint only if every key is
    a declared one, with a value of the declared class. *)
Theorem c71_unpack_map : forall {obj ty W} (P : Py obj ty W) (X : Ops obj ty W) args kw o v w d,
  op_items X v w = (Ok d, w) -> op_unpack X v w = (Ok d, w) -> (forall k, In k (keys d) -> dmem k kw = false) ->
  loose_unpack_map P X None args kw o v w = op_make X o args (d ++ kw) w /\
  (forall tcs,
     let good := forall k x, In (k, x) d -> exists ts, dget k tcs = Some ts /\ instance_of_one P ts x in
     (good -> loose_unpack_map P X (Some tcs) args kw o v w = op_make X o args (d ++ kw) w) /\
     (~ good -> exists m, loose_unpack_map P X (Some tcs) args kw o v w = (Raise (mkexc TypeError m), w))).
Proof. exact (@c71_unpack_map_proof). Qed.
Print Assumptions c71_unpack_map.

(** C71 for LooseUnpackMap: a keyword that is both in the argument and declared with the coercer is a
    TypeError, and the constructor is not called. *)
Theorem c71_unpack_map_twice : forall {obj ty W} (P : Py obj ty W) (X : Ops obj ty W) tcs args kw o v w d k,
  op_items X v w = (Ok d, w) -> op_unpack X v w = (Ok d, w) -> In k (keys d) -> dmem k kw = true ->
  exists m, loose_unpack_map P X tcs args kw o v w = (Raise (mkexc TypeError m), w).
Proof. exact (@c71_unpack_map_twice_proof). Qed.
Print Assumptions c71_unpack_map_twice.

Example c71_twice_case :
  loose_unpack_map demo0 demo_ops None [] [("a", DInt 2)] (OTy TDict) (ddict [(DStr "a", DInt 1)]) st0 =
    (Raise (mkexc TypeError "got multiple values for keyword argument"), st0).
Proof. reflexivity. Qed.

Example c71_case :
  instance_of_one demo0 [TStr; TInt] (DInt 3) /\ ~ instance_of_one demo0 [TStr] (DInt 3) /\
  loose demo0 demo_ops (Some [TStr; TInt]) [] [] (OTy TInt) (DBool true) st0 = (Ok (DInt 1), st0) /\
  loose_unpack demo0 demo_ops (UnpackEach [[TInt]; [TStr]]) [] [] (OTy TList) (dlist [DInt 1; DStr "a"]) st0 = (Ok (dlist [DInt 1; DStr "a"]), st0) /\
  loose_unpack demo0 demo_ops (UnpackEach [[TInt]]) [] [] (OTy TList) (dlist [DInt 1; DStr "a"]) st0 = (Raise (mkexc TypeError ""), st0) /\
  loose_unpack demo0 demo_ops (UnpackAll [TInt]) [] [] (OTy TList) (dtuple [DInt 1; DInt 2]) st0 = (Ok (dlist [DInt 1; DInt 2]), st0) /\
  loose_unpack_map demo0 demo_ops (Some [("a", [TInt])]) [] [] (OTy TDict) (ddict [(DStr "a", DInt 1)]) st0 = (Ok (ddict [(DStr "a", DInt 1)]), st0) /\
  loose_unpack_map demo0 demo_ops (Some [("a", [TInt])]) [] [] (OTy TDict) (ddict [(DStr "b", DInt 1)]) st0 = (Raise (mkexc TypeError ""), st0).
Proof.
  split; [exists TInt; split; [right; left; reflexivity|reflexivity]|]. split; [|repeat split].
  intros (t & [<-|[]] & H). discriminate.
Qed.

(** C79: Eval evaluates strings only, once, in its namespace; what the expression gives is the
    result, an Exception becomes a TypeError that has it as its cause, an interrupt is passed
    on. *)
Theorem c79_eval : forall {obj ty W} (X : Ops obj ty W) ns v w,
  (op_is_str X v = false -> exists m, eval_callback X ns v w = (Raise (mkexc TypeError m), w)) /\
  (op_is_str X v = true ->
     (forall y w', op_eval X ns v w = (Ok y, w') -> eval_callback X ns v w = (Ok y, w')) /\
     (forall e w', op_eval X ns v w = (Raise e, w') ->
        (is_Exception e = true -> exists m, eval_callback X ns v w = (Raise (Exc TypeError m (Some e)), w')) /\
        (is_Exception e = false -> eval_callback X ns v w = (Raise e, w')))).
Proof. exact (@c79_eval_proof). Qed.
Print Assumptions c79_eval.

(** C80: if evaluating a string literal gives a shorter string whenever it gives one, which is
    so because the quotes are gone, LiteralEval terminates: its loop runs no more often than
    the string is long, and the model's bound on the number of rounds is immaterial. *)
Theorem c80_terminates : forall {obj ty W} (X : Ops obj ty W) (size : obj -> nat),
  (forall s w y w', op_is_str X s = true -> op_literal_eval X s w = (Ok y, w') -> op_is_str X y = true -> (size y < size s)%nat) ->
  forall n m v w, (size v < n)%nat -> (size v < m)%nat -> literal_loop X n v w = literal_loop X m v w.
Proof. exact (@c80_terminates_proof). Qed.
Print Assumptions c80_terminates.

(** C80: what it returns is never a string; an argument that is no string is returned as it
    is; and any answer is the answer of evaluating the argument some number of times. *)
Theorem c80_result : forall {obj ty W} (X : Ops obj ty W) n v w,
  (op_is_str X v = false -> literal_loop X n v w = (Ok v, w)) /\
  (forall y w', literal_loop X n v w = (Ok y, w') -> op_is_str X y = false /\ evaluated X v w y w').
Proof. exact (@c80_result_proof). Qed.
Print Assumptions c80_result.

(** C80: it can only be attached to a field whose storage type is one of the literal types. *)
Theorem c80_types : forall {obj ty W} (P : Py obj ty W) (X : Ops obj ty W) literals fuel o,
  match literal_eval_token P X literals fuel with
  | CGlobal g => (forall t, o = OTy t -> In t literals -> exists f, g o = Ok f) /\
                 ((forall t, o = OTy t -> ~ In t literals) -> exists m, g o = Raise (mkexc TypeError m))
  | _ => False
  end.
Proof. exact (@c80_types_proof). Qed.
Print Assumptions c80_types.

(** C81: the Loose coercers can only be attached to a field whose storage type is a class
    that can be instantiated; otherwise creating the record class is a TypeError. *)
Theorem c81_loose : forall {obj ty W} (P : Py obj ty W) (f : @origin ty -> @callback obj W) o,
  match loose_token P f with
  | CGlobal g => (forall t, o = OTy t -> isabstract P t = false -> g o = Ok (f o)) /\
                 ((forall t, o = OTy t -> isabstract P t = true) -> exists m, g o = Raise (mkexc TypeError m))
  | _ => False
  end.
Proof. exact (@c81_loose_proof). Qed.
Print Assumptions c81_loose.

(** C82: a checked field whose last validator is a Clamp, its other tokens being any coercers,
    asserting validators and styles, only ever takes values between the bounds. *)
Theorem c82_clamp_field : forall {obj ty W} (P : Py obj ty W) (X : Ops obj ty W) D lt dflt t toks ge le w0 w1 f,
  honest_containers P -> t <> t_none P -> t <> t_ellipsis P -> eff_style dflt toks <> SHollow -> Forall asserting toks ->
  totally_ordered X D lt -> (forall v, type_of P v = t \/ isinstance P v t = true -> D v) -> bound_in D ge -> bound_in D le ->
  clamp_new X ge le w0 = (Ok tt, w1) ->
  make_filler P dflt (HAnn (HTy t) (toks ++ [TValid (validation (clamp X ge le))])) [] = Ok f ->
  forall x w y w', call P f x w = (Ok y, w') -> above lt true ge y /\ below lt true le y.
Proof. exact (@c82_clamp_field_proof). Qed.
Print Assumptions c82_clamp_field.

(** C82: likewise for Cyclic, on types with exact arithmetic. *)
Theorem c82_cyclic_field : forall {obj ty W} (P : Py obj ty W) (X : Ops obj ty W) D val dflt t toks lo hi f,
  honest_containers P -> t <> t_none P -> t <> t_ellipsis P -> eff_style dflt toks <> SHollow -> Forall asserting toks ->
  exact_numbers X D val -> (forall v, type_of P v = t \/ isinstance P v t = true -> D v) -> D lo -> D hi -> (val lo < val hi)%Q ->
  make_filler P dflt (HAnn (HTy t) (toks ++ [TValid (validation (cyclic X lo hi))])) [] = Ok f ->
  forall x w y w', call P f x w = (Ok y, w') -> (val lo <= val y)%Q /\ (val y < val hi)%Q.
Proof. exact (@c82_cyclic_field_proof). Qed.
Print Assumptions c82_cyclic_field.

(** C83: wherever a Within stands among the tokens of a checked field with asserting
    validators, every value the field takes was compared with both bounds and lies on their
    right sides, according to the comparisons; so on a totally ordered type it lies between
    them. *)
Theorem c83_within_field : forall {obj ty W} (P : Py obj ty W) (X : Ops obj ty W) D lt dflt t toks ge le g_eq l_eq a f,
  honest_containers P -> eff_style dflt toks <> SHollow -> Forall asserting toks ->
  In (TValid (validation (within X ge le g_eq l_eq a))) toks -> as_warn a = WarnFalse ->
  totally_ordered X D lt -> bound_in D ge -> bound_in D le ->
  make_filler P dflt (HAnn (HTy t) toks) [] = Ok f ->
  forall x w y w', call P f x w = (Ok y, w') -> D y -> above lt g_eq ge y /\ below lt l_eq le y.
Proof. exact (@c83_within_field_proof). Qed.
Print Assumptions c83_within_field.

(** C80: an error of evaluating the argument, or what it gave, is the error; but a
    ValueError becomes a TypeError. *)
Theorem c80_error : forall {obj ty W} (X : Ops obj ty W) v w z w1 e w2, evaluated X v w z w1 -> op_is_str X z = true ->
  op_literal_eval X z w1 = (Raise e, w2) -> exists n, forall m, (n <= m)%nat ->
  exists e', literal_loop X m v w = (Raise e', w2) /\ (is_ValueError e = true -> exc_cls e' = TypeError) /\ (is_ValueError e = false -> e' = e).
Proof. exact (@c80_error_proof). Qed.
Print Assumptions c80_error.

(** C102: a field of class [t] with a built-in coercer, given something that is not of its
    class, stores what the coercer's call gives -- the value comes first, then the
    arguments that the coercer was made with -- if that is of class [t]; if the call raises,
    so does the field, in the same state. *)
Theorem c102_coercer : forall {obj ty W} (P : Py obj ty W) (X : Ops obj ty W) s t tok f v m, s = SCheck \/ s = SStrict ->
  t <> t_none P -> t <> t_ellipsis P -> coerced_by P X t v tok m ->
  make_filler P s (HAnn (HTy t) [TCoerce tok]) [] = Ok f -> ~ class_ok P s t v -> forall w,
  (forall y w', m w = (Ok y, w') -> class_ok P s t y -> call P f v w = (Ok y, w')) /\
  (forall y w', m w = (Ok y, w') -> ~ class_ok P s t y -> exists e, exc_cls e = TypeError /\ call P f v w = (Raise e, w')) /\
  (forall e w', m w = (Raise e, w') -> exists e', call P f v w = (Raise e', w') /\ (exc_cls e' = TypeError \/ e' = e)).
Proof. exact (@c102_coercer_proof). Qed.
Print Assumptions c102_coercer.

(** C103: every value that a checked field takes has passed the condition of each of its
    built-in asserting validators, wherever they stand among its tokens. *)
Theorem c103_passed : forall {obj ty W} (P : Py obj ty W) (X : Ops obj ty W) dflt t toks tok cond a f,
  honest_containers P -> eff_style dflt toks <> SHollow -> Forall asserting toks -> In (TValid tok) toks ->
  checks X tok cond a -> as_warn a = WarnFalse ->
  make_filler P dflt (HAnn (HTy t) toks) [] = Ok f ->
  forall x w y w', call P f x w = (Ok y, w') -> exists w1 w2, cond y w1 = (Ok true, w2).
Proof. exact (@c103_passed_proof). Qed.
Print Assumptions c103_passed.

(** C103: a checked field of class [t] with one such validator, given an object of class [t],
    asks the condition once and takes the object as it is if it holds, and raises the
    configured error (by default a ValueError) if not. *)
Theorem c103_decides : forall {obj ty W} (P : Py obj ty W) (X : Ops obj ty W) s t tok cond a f v, s = SCheck \/ s = SStrict ->
  t <> t_none P -> t <> t_ellipsis P -> checks X tok cond a -> as_warn a = WarnFalse ->
  make_filler P s (HAnn (HTy t) [TValid tok]) [] = Ok f -> class_ok P s t v -> forall w b w', cond v w = (Ok b, w') ->
  call P f v w = (if b then Ok v else Raise (match as_err a with ErrExc e => e | ErrText m => mkexc ValueError m end), w').
Proof. exact (@c103_decides_proof). Qed.
Print Assumptions c103_decides.

(** the order of the integers is one, and their arithmetic is exact *)
Example c63_case : totally_ordered demo_ops is_int dlt /\ bound_in is_int (Some (DInt 1)) /\ bound_in is_int (Some (DInt 5)) /\
  clamp_new demo_ops (Some (DInt 1)) (Some (DInt 5)) st0 = (Ok tt, st0) /\
  clamp demo_ops (Some (DInt 1)) (Some (DInt 5)) (DInt 9) st0 = (Ok (DInt 5), st0) /\
  clamp demo_ops (Some (DInt 1)) (Some (DInt 5)) (DBool false) st0 = (Ok (DInt 1), st0) /\
  clamp demo_ops (Some (DInt 1)) None (DInt 9) st0 = (Ok (DInt 9), st0).
Proof. split; [exact demo_ordered|]. repeat split; intros a [= <-]; discriminate. Qed.

Example c64_case : exact_numbers demo_ops is_int dval /\ (dval (DInt 0) < dval (DInt 360))%Q /\
  cyclic demo_ops (DInt 0) (DInt 360) (DInt (-1)) st0 = (Ok (DInt 359), st0) /\
  cyclic demo_ops (DInt 0) (DInt 360) (DInt 360) st0 = (Ok (DInt 0), st0) /\
  cyclic demo_ops (DInt 0) (DInt 360) (DInt 7) st0 = (Ok (DInt 7), st0).
Proof. split; [exact demo_exact|]. repeat split. Qed.

Example c65_case : let w0 := within demo_ops (Some (DInt 0)) (Some (DInt 10)) true false (AssertArgs (ErrText "no") WarnFalse) in
  above dlt true (Some (DInt 0)) (DInt 0) /\ below dlt false (Some (DInt 10)) (DInt 0) /\ ~ below dlt false (Some (DInt 10)) (DInt 10) /\
  w0 (DInt 0) st0 = (Ok (DInt 0), st0) /\ w0 (DInt 10) st0 = (Raise (mkexc ValueError "no"), st0) /\
  within_new demo_ops (Some (DInt 4)) (Some (DInt 4)) true false st0 =
    (Raise (mkexc ValueError "the lower bound must not be greater then the upper bound"), st0) /\
  within_new demo_ops (Some (DInt 4)) (Some (DInt 4)) true true st0 = (Ok tt, st0).
Proof.
  repeat split; try (intros a [= <-]; reflexivity). intros H. specialize (H _ eq_refl). discriminate.
Qed.

(** Truth: 0 is reported as a warning, or raised *)
Example c74_case :
  truth_validator demo_ops (AssertArgs (ErrText "zero") WarnTrue) (DInt 0) st0 = (Ok (DInt 0), ([], [DStr "zero"])) /\
  truth_validator demo_ops (AssertArgs (ErrExc (mkexc KeyError "k")) WarnFalse) (DInt 0) st0 = (Raise (mkexc KeyError "k"), st0) /\
  truth_validator demo_ops (AssertArgs (ErrExc (mkexc KeyError "k")) WarnFalse) (DInt 3) st0 = (Ok (DInt 3), st0) /\
  (forall target e w, exists w', op_warn demo_ops target e w = (Ok tt, w')).
Proof. repeat split. intros. eexists. reflexivity. Qed.

Example c79_case : eval_callback demo_ops [("a", DInt 4)] (DStr "a") st0 = (Ok (DInt 4), st0) /\
  eval_callback demo_ops [("a", DInt 4)] (DStr "b") st0 = (Raise (Exc TypeError "" (Some (mkexc KeyError "b"))), st0) /\
  eval_callback demo_ops [("a", DInt 4)] (DInt 3) st0 = (Raise (mkexc TypeError ""), st0).
Proof. repeat split. Qed.

(** '7' in two pairs of quotes *)
Example c80_case :
  (forall s w y w', op_is_str demo_ops s = true -> op_literal_eval demo_ops s w = (Ok y, w') -> op_is_str demo_ops y = true -> (dsize y < dsize s)%nat) /\
  literal_loop demo_ops 10 (DStr "''7''") st0 = (Ok (DInt 7), st0) /\
  literal_loop demo_ops 10 (DStr "'x'") st0 = (Raise (mkexc TypeError ""), st0).
Proof.
  split; [|split; reflexivity]. intros s w y w' S E Y. destruct s as [| | | | |s| | | | | | | |]; try discriminate.
  cbn in E. destruct (String.eqb s "7"); [injection E as <- <-; discriminate|].
  destruct s as [|a r]; [discriminate|]. cbn [dstrip] in E. destruct (negb _); [discriminate|].
  destruct (Nat.ltb (String.length r) 1); [discriminate|]. injection E as <- <-. cbn [dsize String.length].
  pose proof (substring_length (String.length r - 1) r). lia.
Qed.

(** a string is first coerced to the number of arguments, 1 *)
Example c82_case : exists f, make_filler demo0 SCheck demo_field [] = Ok f /\
  call demo0 f (DInt 9) st0 = (Ok (DInt 5), st0) /\ call demo0 f (DStr "a") st0 = (Ok (DInt 1), st0) /\
  (forall v, type_of demo0 v = TInt \/ isinstance demo0 v TInt = true -> is_int v).
Proof.
  eexists. split; [reflexivity|]. repeat split. intros v H. unfold is_int. destruct v as [| | | | | | |t n| | | | | |]; cbn in *; intros F; try discriminate; try (destruct H; congruence).
  destruct t; cbn in *; try discriminate; destruct H; congruence.
Qed.

Example c83_case : exists f,
  make_filler demo0 SCheck (HAnn (HTy TInt) [TValid (validation (within demo_ops (Some (DInt 0)) (Some (DInt 10)) true false plain_assert)); TStyle SCheck]) [] = Ok f /\
  call demo0 f (DInt 9) st0 = (Ok (DInt 9), st0) /\ (exists e, call demo0 f (DInt 10) st0 = (Raise e, st0)).
Proof. eexists. split; [reflexivity|]. split; [reflexivity|]. eexists. reflexivity. Qed.

(** an int field: the built-in coercers are made for it, and Falsish is asked *)
Example c102_case : exists f, make_filler demo0 SCheck (HAnn (HTy TInt) [TCoerce (origin_dependant (falsish demo_ops [] []))]) [] = Ok f /\
  coerced_by demo0 demo_ops TInt DNone (origin_dependant (falsish demo_ops [] [])) (op_make demo_ops (OTy TInt) [] []) /\
  coerced_by demo0 demo_ops TInt (DStr "x") (origin_dependant (falsish demo_ops [] [])) (raise (mkexc TypeError "")) /\
  ~ class_ok demo0 SCheck TInt DNone /\
  call demo0 f DNone st0 = op_make demo_ops (OTy TInt) [] [] st0 /\ call demo0 f (DStr "x") st0 = (Raise (mkexc TypeError ""), st0).
Proof.
  eexists. split; [reflexivity|]. split; [apply by_falsish; reflexivity|]. split; [apply by_not_falsish; reflexivity|].
  split; [intros [H|H]; discriminate|]. split; vm_compute; reflexivity.
Qed.
Example c103_case : exists f, make_filler demo0 SCheck (HAnn (HTy TInt) [TValid (validation (truth_validator demo_ops plain_assert))]) [] = Ok f /\
  call demo0 f (DInt 3) st0 = (Ok (DInt 3), st0) /\ call demo0 f (DInt 0) st0 = (Raise (mkexc ValueError "validation failed"), st0).
Proof. eexists. split; [reflexivity|]. split; vm_compute; reflexivity. Qed.
