(** Order_main.v -- proofs of the properties stated in Props_Order.v: ordering and subclasses *)

From Verif Require Import Base Py Select Filler Classes Spec_Classes Runtime Record Spec_Record Spec_Inst Demo DemoRt DemoCls.
From Verif Require Dict_proofs Filler_proofs Classes_proofs Record_proofs Inst_proofs Inst_main.
Open Scope string_scope.
Open Scope list_scope.

Import Dict_proofs Filler_proofs Classes_proofs Record_proofs Inst_proofs Inst_main.

Lemma list_cmp_sub : forall {obj ty W} (R : Rt obj ty W) eqb ltb D (i j : inst obj ty) w x y ks extra, lookup R w x = Some i -> lookup R w y = Some j ->
  (forall k, In k ks -> ordered_domain R eqb ltb (D k)) -> in_domain D ks i -> in_domain D ks j ->
  (forall k, In k extra -> exists v, dget k (i_dict j) = Some v) ->
  exists xs ys, mapM (getattr R x) ks w = (Ok xs, w) /\ mapM (getattr R y) (ks ++ extra) w = (Ok ys, w) /\
  forall op, exists b, list_cmp R op xs ys w = (Ok b, w) /\
    (b = true <-> match op with
                  | CLt => lex_less eqb ltb ks i j \/ (lex_equal eqb ks i j /\ extra <> [])
                  | CLe => lex_less eqb ltb ks i j \/ lex_equal eqb ks i j
                  | CGt => lex_less eqb ltb ks j i
                  | CGe => lex_less eqb ltb ks j i \/ (lex_equal eqb ks i j /\ extra = [])
                  end).
Proof.
  intros obj ty W R eqb ltb D i j w x y ks extra HX HY. induction ks as [|k r IH]; intros HO HI HJ HE.
  - assert (M : exists ys, mapM (getattr R y) extra w = (Ok ys, w) /\ (ys = [] <-> extra = [])).
    { clear - HE HY. induction extra as [|e r IH]; [exists []; split; [reflexivity|tauto]|]. destruct (HE e (or_introl eq_refl)) as [v E].
      destruct IH as (ys & M & _); [intros; apply HE; right; assumption|]. exists (v :: ys). split; [|split; discriminate].
      cbn [mapM]. unfold bind, getattr at 1. rewrite HY, E, M. reflexivity. }
    destruct M as (ys & M & N). exists [], ys. split; [reflexivity|]. split; [exact M|]. intro op.
    pose proof (lex_less_nil eqb ltb i j) as N1. pose proof (lex_less_nil eqb ltb j i) as N2.
    assert (E : lex_equal eqb [] i j) by (intros ? ? ? []).
    assert (NN : @nil obj = []) by reflexivity.
    destruct ys as [|v ys]; destruct op; eexists; (split; [reflexivity|]); split; intros; try discriminate; try reflexivity; try tauto.
    all: assert (NE : v :: ys <> []) by discriminate; tauto.
  - pose proof (lex_tri R eqb ltb D (k :: r) i j HO HI HJ) as TRI.
    apply in_domain_cons in HI, HJ. destruct HI as [(a & EA & DA) HI]. destruct HJ as [(b & EB & DB) HJ].
    destruct (HO k (or_introl eq_refl)) as (OP & O1 & O2 & O3 & O4 & O5 & O6).
    destruct IH as (xs & ys & EX & EY & HC); [intros; apply HO; right; assumption|assumption|assumption|assumption|].
    exists (a :: xs), (b :: ys).
    split; [cbn [mapM]; unfold bind, getattr at 1; rewrite HX, EA, EX; reflexivity|].
    split; [cbn [mapM app]; unfold bind, getattr at 1; rewrite HY, EB, EY; reflexivity|].
    pose proof (lex_less_cons eqb ltb k r i j a b EA EB) as L1. pose proof (lex_less_cons eqb ltb k r j i b a EB EA) as L2. pose proof (lex_equal_cons eqb k r i j a b EA EB) as L3.
    destruct (OP a b w DA DB) as (P1 & P2 & P3 & P4 & P5).
    assert (SAME : (if py_is (rt_py R) a b then ret true else v_eq R a b) w = (Ok (eqb a b), w)).
    { destruct (py_isP (rt_py R) a b) as [->|N]; [|exact P1]. rewrite O1 by assumption. reflexivity. }
    intro op. cbn [list_cmp]. unfold bind. rewrite SAME. destruct (eqb a b) eqn:EE.
    + assert (E' : eqb b a = true) by (apply O2; assumption).
      assert (N1 : ltb a b = false) by (destruct (ltb a b) eqn:X; [destruct (O6 a b DA DB X); congruence|reflexivity]).
      assert (N2 : ltb b a = false) by (destruct (ltb b a) eqn:X; [destruct (O6 b a DB DA X); congruence|reflexivity]).
      destruct (HC op) as (bb & H1 & H2). exists bb. split; [exact H1|]. rewrite H2.
      rewrite N1 in L1. rewrite N2, E' in L2. destruct op; rewrite ?L1, ?L2, ?L3; intuition congruence.
    + assert (E' : eqb b a = false) by (destruct (eqb b a) eqn:X; [apply O2 in X; congruence|reflexivity]).
      destruct op; [rewrite P2|rewrite P3|rewrite P4|rewrite P5]; eexists; (split; [reflexivity|]);
        rewrite ?L1, ?L2, ?L3, ?E', ?orb_false_r; intuition congruence.
Qed.

Lemma c90_mirror_partial_proof : forall {obj ty W} (R : Rt obj ty W) ctx c w x i c' y j,
  c_ordered c = true -> c_ordered c' = true -> instance_of R ctx c w x i -> instance_of R ctx c' w y j ->
  isinstance (rt_py R) y (c_ty c) = true -> isinstance (rt_py R) x (c_ty c') = false ->
  compare R ctx CLt x y w = compare R ctx CGt y x w /\
  compare R ctx CLe x y w = compare R ctx CGe y x w /\
  compare R ctx CGt x y w = compare R ctx CLt y x w /\
  compare R ctx CGe x y w = compare R ctx CLe y x w.
Proof.
  intros obj ty W R ctx c w x i c' y j HO HO' HI HJ HY HX.
  pose proof HI as (_ & _ & _ & TX & _). pose proof HJ as (_ & _ & _ & TY & _).
  assert (N : forall op, cmp_method R ctx op y x w = (Ok None, w)).
  { intros op. unfold cmp_method. rewrite (class_of_instance R ctx c' w y j HJ), HO', TY, HX. reflexivity. }
  assert (NE : ty_eqb (rt_py R) (c_ty c') (c_ty c) = false).
  { destruct (ty_eqP (rt_py R) (c_ty c') (c_ty c)) as [E|]; [|reflexivity]. rewrite E, <- TX, isinstance_type in HX. discriminate. }
  assert (A : forall op, compare R ctx op x y w = (let* r := cmp_method R ctx op x y in match r with Some b => ret b | None => raise (mkexc TypeError "not supported between instances") end) w).
  { intros op. unfold compare. rewrite TX, TY, HY, NE. cbn [negb andb]. unfold bind. rewrite N. reflexivity. }
  assert (B : forall op, compare R ctx op y x w = (let* r := cmp_method R ctx (mirror op) x y in match r with Some b => ret b | None => raise (mkexc TypeError "not supported between instances") end) w).
  { intros op. unfold compare. rewrite TX, TY, HX. cbn [negb andb]. unfold bind. rewrite N. reflexivity. }
  rewrite !A, !B. repeat split; reflexivity.
Qed.

Lemma c90_lexicographic_partial_proof : forall {obj ty W} (R : Rt obj ty W) ctx eqb ltb D c w x i c' y j extra,
  c_ordered c = true -> c_ordered c' = true -> instance_of R ctx c w x i -> instance_of R ctx c' w y j ->
  isinstance (rt_py R) y (c_ty c) = true -> isinstance (rt_py R) x (c_ty c') = false ->
  ordering_fields c' = ordering_fields c ++ extra ->
  (forall k, In k (ordering_fields c) -> ordered_domain R eqb ltb (D k)) ->
  (forall k v, In k (ordering_fields c) -> dget k (i_dict i) = Some v -> D k v) ->
  (forall k v, In k (ordering_fields c) -> dget k (i_dict j) = Some v -> D k v) ->
  exists lt le gt ge,
    compare R ctx CLt x y w = (Ok lt, w) /\ compare R ctx CLe x y w = (Ok le, w) /\
    compare R ctx CGt x y w = (Ok gt, w) /\ compare R ctx CGe x y w = (Ok ge, w) /\
    (lt = true <-> lex_less eqb ltb (ordering_fields c) i j \/ (lex_equal eqb (ordering_fields c) i j /\ extra <> [])) /\
    (le = true <-> lex_less eqb ltb (ordering_fields c) i j \/ lex_equal eqb (ordering_fields c) i j) /\
    (gt = true <-> lex_less eqb ltb (ordering_fields c) j i) /\
    (ge = true <-> lex_less eqb ltb (ordering_fields c) j i \/ (lex_equal eqb (ordering_fields c) i j /\ extra = [])).
Proof.
  intros obj ty W R ctx eqb ltb D c w x i c' y j extra HO HO' HI HJ HY HX HE HD VI VJ.
  pose proof HI as (_ & HL & _ & TX & FI). pose proof HJ as (_ & HLJ & _ & TY & FJ).
  assert (N : forall op, cmp_method R ctx op y x w = (Ok None, w)).
  { intros op. unfold cmp_method. rewrite (class_of_instance R ctx c' w y j HJ), HO', TY, HX. reflexivity. }
  assert (NE : ty_eqb (rt_py R) (c_ty c') (c_ty c) = false).
  { destruct (ty_eqP (rt_py R) (c_ty c') (c_ty c)) as [E|]; [|reflexivity]. rewrite E, <- TX, isinstance_type in HX. discriminate. }
  assert (SUB : forall (c0 : @cls obj ty W) k, In k (ordering_fields c0) -> In k (keys (c_fields c0))).
  { intros c0 k HK. unfold ordering_fields, keys in *. apply in_map_iff in HK. destruct HK as (kf & <- & HK). apply filter_In in HK. apply in_map. tauto. }
  assert (DI : in_domain D (ordering_fields c) i) by (intros k HK; destruct (FI k (SUB c k HK)) as [v E]; exists v; eauto).
  assert (IJ : forall k, In k (ordering_fields c) \/ In k extra -> In k (keys (c_fields c'))).
  { intros k HK. apply SUB. rewrite HE. apply in_or_app. assumption. }
  assert (DJ : in_domain D (ordering_fields c) j) by (intros k HK; destruct (FJ k (IJ k (or_introl HK))) as [v E]; exists v; eauto).
  destruct (list_cmp_sub R eqb ltb D i j w x y (ordering_fields c) extra HL HLJ HD DI DJ (fun k HK => FJ k (IJ k (or_intror HK)))) as (xs & ys & EX & EY & HC).
  assert (A : forall op b, list_cmp R op xs ys w = (Ok b, w) -> compare R ctx op x y w = (Ok b, w)).
  { intros op b EB. unfold compare. rewrite TX, TY, HY, NE. cbn [negb andb]. unfold bind at 1. rewrite N.
    apply bind_ok. exists (Some b), w. split; [|reflexivity].
    unfold cmp_method. rewrite (class_of_instance R ctx c w x i HI), HO, TX, HY. cbn [negb].
    apply bind_ok. exists xs, w. split; [unfold ordering_key, with_class; rewrite (class_of_instance R ctx c w x i HI); exact EX|].
    apply bind_ok. exists ys, w. split; [unfold ordering_key, with_class; rewrite (class_of_instance R ctx c' w y j HJ); rewrite <- HE in EY; exact EY|].
    apply bind_ok. exists b, w. split; [exact EB|reflexivity]. }
  destruct (HC CLt) as (b1 & E1 & H1). destruct (HC CLe) as (b2 & E2 & H2). destruct (HC CGt) as (b3 & E3 & H3). destruct (HC CGe) as (b4 & E4 & H4).
  exists b1, b2, b3, b4. repeat (split; [apply A; assumption|]). auto.
Qed.

(** an ordered class, a subclass that does not say ordered=True and one that does *)
Definition order_base := rdecl 0 true true (Some false) SCheck [("x", (an TInt, NoDefault)); ("y", (an TInt, NoDefault))] [] no_post.
Definition order_sub (ordered : bool) : @decl dobj dty rstate :=
  Decl (TRec 100) true ordered (Some false) SCheck [("z", an TInt)] ["x"; "y"]
       (fun _ => NoDefault) [BRecord (made_of order_base)] [] [] no_post.
Definition order_ctx (ordered : bool) (t : dty) : option (@cls dobj dty rstate) :=
  match t with TRec 0 => Some (made_of order_base) | TRec 100 => Some (made_of (order_sub ordered)) | _ => None end.
Definition order_w : rstate := RState []
  [Inst (TRec 0) [("x", DInt 1); ("y", DInt 2)] SNone;
   Inst (TRec 100) [("x", DInt 1); ("y", DInt 2); ("z", DInt 0)] SNone;
   Inst (TRec 100) [("x", DInt 1); ("y", DInt 1); ("z", DInt 7)] SNone] [].

Lemma c90_default_refuted_proof : forall {obj ty W} (R : Rt obj ty W) ctx d c c' op w x i y j,
  make_class (rt_py R) d = Ok c' -> In (BRecord c) (d_bases d) -> d_ordered d = false -> c_ordered c = true ->
  instance_of R ctx c w x i -> instance_of R ctx c' w y j ->
  isinstance (rt_py R) y (c_ty c) = true -> isinstance (rt_py R) x (c_ty c') = false ->
  (exists m, compare R ctx op x y w = (Raise (mkexc TypeError m), w)) /\
  (exists m, compare R ctx op y x w = (Raise (mkexc TypeError m), w)) /\
  (exists m, compare R ctx op y y w = (Raise (mkexc TypeError m), w)).
Proof.
  intros obj ty W R ctx d c c' op w x i y j HM _ HO HC HI HJ I1 I2.
  assert (OC : c_ordered c' = false).
  { unfold make_class in HM. destruct (own_fields _ _ _) as [own|]; [|discriminate HM]. cbn [obind] in HM.
    destruct (inherit_fields _ _ _) as [ps|]; [|discriminate HM]. cbn [obind] in HM. cbn zeta in HM.
    destruct (ps ++ own) as [|f fs]; [discriminate HM|].
    destruct (apply_prebind _ _ _) as [fs1|]; [|discriminate HM]. cbn [obind] in HM.
    destruct (bind_fields _ _ _ _) as [fs2|]; [|discriminate HM]. cbn [obind] in HM.
    injection HM as <-. exact HO. }
  pose proof HI as (CX & _ & _ & TX & _). pose proof HJ as (CY & _ & _ & TY & _).
  assert (NE : c_ty c' <> c_ty c) by (intros E; rewrite E in CY; rewrite CX in CY; injection CY as ->; congruence).
  split; [|split].
  - exists "cannot compare with non-ordered type". unfold compare. rewrite TX, I1.
    destruct (ty_eqP (rt_py R) (type_of (rt_py R) y) (c_ty c)) as [E|_]; [congruence|]. cbn [andb negb].
    assert (CM : cmp_method R ctx (mirror op) y x w = (Raise (mkexc TypeError "cannot compare with non-ordered type"), w)).
    { unfold cmp_method. rewrite (class_of_instance R ctx c' w y j HJ), OC. reflexivity. }
    unfold bind. rewrite CM. reflexivity.
  - eapply c58_not_ordered_proof; [exact OC|exact HJ|]. left. now rewrite TY.
  - eapply c58_not_ordered_proof; [exact OC|exact HJ|]. now right.
Qed.
