(** Ranges_main.v -- proofs of the properties stated in Props_Ranges.v: ranges: what Clamp, Cyclic and Within promise of the fields of all records, at any time *)

From Coq Require Import QArith.
From Verif Require Import Base Py Select Filler Spec_Filler Classes Spec_Classes Runtime Record Spec_Record Spec_Inst Spec_Hist Tokens Spec_Tokens Spec_Ranges Demo DemoRt DemoCls DemoTok.
From Verif Require Dict_proofs Filler_main Props_Filler Classes_main Hist_main Tok_main.
Open Scope string_scope.
Open Scope list_scope.

(** the operations on the objects of Demo.v, with the state of DemoRt.v; calls fail *)
Definition range_ops : Ops dobj dty rstate := {|
  op_cmp := dcmp;
  op_eq := fun x y => ret (match dnum x, dnum y with Some a, Some b => Z.eqb a b | _, _ => dis x y end);
  op_truth := fun x => ret (match x with DNone | DBool false => false | DInt 0 | DSub 0 => false | _ => true end);
  op_sub := darith Z.sub;
  op_mod := fun x y => match dnum y with Some 0%Z => raise (mkexc ZeroDivisionError "") | _ => darith Z.modulo x y end;
  op_add := darith Z.add;
  op_call := fun _ _ _ => no_op; op_make := fun _ _ _ => no_op; op_method := fun _ m => Raise (mkexc AttributeError m);
  op_tuple := fun _ => no_op; op_items := fun _ => no_op; op_unpack := fun _ => no_op;
  op_is_str := fun _ => false; op_eval := fun _ _ => no_op; op_literal_eval := fun _ => no_op;
  op_warn := fun _ _ => ret tt
|}.
Definition num_or_0 (x : dobj) : Z := match dnum x with Some z => z | None => 0 end.
Definition is_num (x : dobj) : Prop := dnum x <> None.
Definition num_lt (x y : dobj) : bool := Z.ltb (num_or_0 x) (num_or_0 y).
Definition num_val (x : dobj) : Q := inject_Z (num_or_0 x).
(** class Dial(Record, frozen=fz): x: Annotated[int, Clamp(1, 5)] = dv *)
Definition dial_token : @token dobj dty rstate := TValid (validation (clamp range_ops (Some (DInt 1)) (Some (DInt 5)))).
Definition dial_decl (fz : bool) (dv : @default dobj rstate) : @decl dobj dty rstate :=
  rdecl 0 fz false None SCheck [("x", (AHint (HTy TInt) [ATok dial_token], dv))] [] no_post.
(** class SubDial(Dial): y: int *)
Definition subdial_decl (fz : bool) (dv : @default dobj rstate) : @decl dobj dty rstate :=
  Decl (TRec 1) true false None SCheck [("y", an TInt)] [] (fun _ => NoDefault) [BRecord (made_of (dial_decl fz dv))] [] [] no_post.
Definition dial_ctx (fz : bool) (dv : @default dobj rstate) (t : dty) : option (@cls dobj dty rstate) :=
  match t with TRec 0 => Some (made_of (dial_decl fz dv)) | TRec 1 => Some (made_of (subdial_decl fz dv)) | _ => None end.
Definition between_1_5 (v : dobj) : Prop := above num_lt true (Some (DInt 1)) v /\ below num_lt true (Some (DInt 5)) v.

Section Good.
Context {obj ty W : Type} (R : Rt obj ty W) (ctx : ty -> option (@cls obj ty W)).
Notation P := (rt_py R).
Lemma descends_field : forall (c c' : @cls obj ty W) k f, descends R c c' -> dget k (c_fields c) = Some f -> dget k (c_fields c') = Some f.
Proof.
  intros c c' k f D E. induction D as [|d b c' MC DO MB IN _ IH]; [exact E|].
  destruct (Classes_main.c59_fields_proof P d c' MC DO MB) as [INH _]. exact (INH b k f IN IH).
Qed.
Lemma everywhere_right : forall c k f (good : obj -> Prop) w, dget k (c_fields c) = Some f ->
  good_everywhere R ctx c k good w <-> all_right R ctx (good_for R ctx c k good) w.
Proof.
  intros c k f good w E. split.
  - intros G x i c' k' v L C _ V -> c2 C2 D. exact (G x i c2 v L C2 D V).
  - intros G x i c' v L C D V. refine (G x i c' k v L C _ V eq_refl c' C D).
    eapply Dict_proofs.dget_some_key. eapply descends_field; eassumption.
Qed.
Lemma good_always : forall d c k t toks (good : obj -> Prop),
  declares R d c k t toks ->
  (forall f, make_filler P (d_style d) (HAnn (HTy t) toks) [] = Ok f -> forall x w y w', call P f x w = (Ok y, w') -> good y) ->
  default_is good d k ->
  program_obeys R (keeping (stays_right R ctx (good_for R ctx c k good))) ctx ->
  forall l w, (forall a, In a l -> allowed ctx (stays_right R ctx (good_for R ctx c k good)) a) ->
  assigns_right R ctx (good_for R ctx c k good) l w ->
  good_everywhere R ctx c k good w -> good_everywhere R ctx c k good (after_all R ctx l w).
Proof.
  intros d c k t toks good DE FG DG PO l w AL AS G. destruct DE as [MC DO MB (a & EA & FA & HA) PB N1 N2].
  destruct (Classes_main.c59_fields_proof P d c MC DO MB) as [_ OWN].
  destruct (OWN k a EA FA) as (f & EF & _ & _ & DF & _ & MF). rewrite HA, PB in MF.
  apply (everywhere_right c k f good _ EF). apply (everywhere_right c k f good _ EF) in G.
  apply Hist_main.c99_always_partial_proof; [exact PO| |exact AL|exact AS|exact G].
  intros t' c' C' k' f' E'.
  assert (SAME : k' = k -> forall c2, ctx (c_ty c') = Some c2 -> descends R c c2 -> f' = f).
  { intros -> c2 C2 D. rewrite (proj1 (proj2 PO t' c' C')) in C2. rewrite C' in C2. injection C2 as <-.
    rewrite (descends_field c c' k f D EF) in E'. congruence. }
  split; [|split].
  - intros v w1 y w2 EC K c2 C2 D. rewrite (SAME K c2 C2 D) in EC. exact (FG (f_filler f) MF v w1 y w2 EC).
  - intros dv ED K c2 C2 D. rewrite (SAME K c2 C2 D), DF in ED. unfold default_is in DG. rewrite ED in DG. exact DG.
  - intros g w1 y w2 ED EG K c2 C2 D. rewrite (SAME K c2 C2 D), DF in ED. unfold default_is in DG. rewrite ED in DG. exact (DG w1 y w2 EG).
Qed.
End Good.

Lemma c134_clamp_partial_proof : forall {obj ty W} (R : Rt obj ty W) ctx (X : Ops obj ty W) D lt d c k t toks ge le w0 w1,
  honest_containers (rt_py R) -> declares R d c k t (toks ++ [TValid (validation (clamp X ge le))]) ->
  eff_style (d_style d) toks <> SHollow -> Forall asserting toks ->
  totally_ordered X D lt -> (forall v, type_of (rt_py R) v = t \/ isinstance (rt_py R) v t = true -> D v) ->
  bound_in D ge -> bound_in D le -> clamp_new X ge le w0 = (Ok tt, w1) ->
  let good := fun y => above lt true ge y /\ below lt true le y in
  default_is good d k ->
  program_obeys R (keeping (stays_right R ctx (good_for R ctx c k good))) ctx ->
  forall l w, (forall a, In a l -> allowed ctx (stays_right R ctx (good_for R ctx c k good)) a) ->
  assigns_right R ctx (good_for R ctx c k good) l w ->
  good_everywhere R ctx c k good w -> good_everywhere R ctx c k good (after_all R ctx l w).
Proof.
  intros obj ty W R ctx X D lt d c k t toks ge le w0 w1 HC DE NH AS TO DT Bg Bl CN good DG PO.
  eapply good_always; [exact DE| |exact DG|exact PO]. intros f MF x w y w' E.
  exact (Tok_main.c82_clamp_field_proof (rt_py R) X D lt (d_style d) t toks ge le w0 w1 f HC (de_not_none R _ _ _ _ _ DE) (de_not_ellipsis R _ _ _ _ _ DE) NH AS TO DT Bg Bl CN MF x w y w' E).
Qed.

Lemma c134_cyclic_partial_proof : forall {obj ty W} (R : Rt obj ty W) ctx (X : Ops obj ty W) D val d c k t toks lo hi,
  honest_containers (rt_py R) -> declares R d c k t (toks ++ [TValid (validation (cyclic X lo hi))]) ->
  eff_style (d_style d) toks <> SHollow -> Forall asserting toks ->
  exact_numbers X D val -> (forall v, type_of (rt_py R) v = t \/ isinstance (rt_py R) v t = true -> D v) ->
  D lo -> D hi -> (val lo < val hi)%Q ->
  let good := fun y => (val lo <= val y)%Q /\ (val y < val hi)%Q in
  default_is good d k ->
  program_obeys R (keeping (stays_right R ctx (good_for R ctx c k good))) ctx ->
  forall l w, (forall a, In a l -> allowed ctx (stays_right R ctx (good_for R ctx c k good)) a) ->
  assigns_right R ctx (good_for R ctx c k good) l w ->
  good_everywhere R ctx c k good w -> good_everywhere R ctx c k good (after_all R ctx l w).
Proof.
  intros obj ty W R ctx X D val d c k t toks lo hi HC DE NH AS EN DT Dl Dh LT good DG PO.
  eapply good_always; [exact DE| |exact DG|exact PO]. intros f MF x w y w' E.
  exact (Tok_main.c82_cyclic_field_proof (rt_py R) X D val (d_style d) t toks lo hi f HC (de_not_none R _ _ _ _ _ DE) (de_not_ellipsis R _ _ _ _ _ DE) NH AS EN DT Dl Dh LT MF x w y w' E).
Qed.

Lemma c134_within_partial_proof : forall {obj ty W} (R : Rt obj ty W) ctx (X : Ops obj ty W) D lt d c k t toks ge le g_eq l_eq a,
  honest_containers (rt_py R) -> declares R d c k t toks ->
  eff_style (d_style d) toks <> SHollow -> Forall asserting toks ->
  In (TValid (validation (within X ge le g_eq l_eq a))) toks -> as_warn a = WarnFalse ->
  totally_ordered X D lt -> (forall v, type_of (rt_py R) v = t \/ isinstance (rt_py R) v t = true -> D v) ->
  bound_in D ge -> bound_in D le ->
  let good := fun y => above lt g_eq ge y /\ below lt l_eq le y in
  default_is good d k ->
  program_obeys R (keeping (stays_right R ctx (good_for R ctx c k good))) ctx ->
  forall l w, (forall a, In a l -> allowed ctx (stays_right R ctx (good_for R ctx c k good)) a) ->
  assigns_right R ctx (good_for R ctx c k good) l w ->
  good_everywhere R ctx c k good w -> good_everywhere R ctx c k good (after_all R ctx l w).
Proof.
  intros obj ty W R ctx X D lt d c k t toks ge le g l a HC DE NH AS IN WA TO DT Bg Bl good DG PO.
  eapply good_always; [exact DE| |exact DG|exact PO]. intros f MF x w y w' E.
  refine (Tok_main.c83_within_field_proof (rt_py R) X D lt (d_style d) t toks ge le g l a f HC NH AS IN WA TO Bg Bl MF x w y w' E (DT y _)).
  apply (Tok_main.checked_class (rt_py R) (d_style d) t toks y (de_not_none R _ _ _ _ _ DE) (de_not_ellipsis R _ _ _ _ _ DE)); [|exact NH].
  apply (Filler_main.c02_type_soundness_proof (rt_py R) (d_style d) _ [] f HC MF) with (x := x) (w := w) (w' := w'); [|exact E].
  cbn. rewrite !app_nil_r. exact AS.
Qed.

Lemma c134_frozen_proof : forall {obj ty W} (R : Rt obj ty W) ctx c k (good : obj -> Prop),
  frozen_family R ctx c -> forall l w, assigns_right R ctx (good_for R ctx c k good) l w.
Proof.
  intros obj ty W R ctx c k good FF l. induction l as [|a r IH]; intros w; [exact I|]. cbn [assigns_right]. split; [|apply IH].
  destruct a; try exact I. intros i c' L C. destruct (c_frozen c') eqn:F; [left; reflexivity|right].
  intros K c2 C2 D. pose proof (FF _ _ C2 D). congruence.
Qed.

Lemma num_ordered : totally_ordered range_ops is_num num_lt.
Proof.
  unfold is_num, num_lt, num_or_0. split; [|split; [|split]].
  - intros a b w Da Db. cbn. unfold dcmp. destruct (dnum a) as [x|]; [|congruence]. destruct (dnum b) as [y|]; [|congruence].
    cbn. unfold ret. rewrite <- (Z.leb_antisym x y), <- (Z.leb_antisym y x). repeat split. f_equal. f_equal.
    destruct (Z.eqb_spec x y); destruct (Z.leb_spec y x); destruct (Z.leb_spec x y); try reflexivity; lia.
  - intros a Da. apply Z.ltb_irrefl.
  - intros a b c _ _ _ H1 H2. apply Z.ltb_lt in H1, H2. apply Z.ltb_lt. lia.
  - intros a b c _ _ _ H1. apply Z.ltb_lt in H1. rewrite !Z.ltb_lt. lia.
Qed.
Lemma ints_num : forall v, type_of rt0 v = TInt \/ isinstance rt0 v TInt = true -> is_num v.
Proof.
  intros v H. unfold is_num. destruct v as [| | | | | | |t n| | | | | |]; cbn in *; intros F; try discriminate; try (destruct H; congruence).
  destruct t; cbn in *; try discriminate; destruct H; congruence.
Qed.
Lemma dial_made : forall fz dv, dv = NoDefault \/ (exists v, dv = DefVal v) -> make_class rt0 (dial_decl fz dv) = Ok (made_of (dial_decl fz dv)).
Proof. intros fz dv [->|[v ->]]; destruct fz; reflexivity. Qed.
Lemma subdial_made : forall fz, make_class rt0 (subdial_decl fz NoDefault) = Ok (made_of (subdial_decl fz NoDefault)).
Proof. intros fz; destruct fz; reflexivity. Qed.
Lemma dial_declares : forall fz dv, dv = NoDefault \/ (exists v, dv = DefVal v) ->
  declares (demo_rt 0) (dial_decl fz dv) (made_of (dial_decl fz dv)) "x" TInt ([] ++ [dial_token]).
Proof.
  intros fz dv H. constructor; [| | | |reflexivity|discriminate|discriminate].
  - apply dial_made. exact H.
  - repeat constructor; simpl; tauto.
  - intros b [F|[]]. discriminate.
  - eexists. split; [reflexivity|]. split; reflexivity.
Qed.
Lemma dial_token_obeys : forall rule : rstate -> option exc -> rstate -> Prop,
  (forall w, rule w None w) -> (forall w e, is_Exception e = true -> rule w (Some e) w) -> token_obeys rule dial_token.
Proof.
  intros rule R1 R2 o f E x w. cbn in E. injection E as <-. unfold clamp, range_ops, op_cmp, dcmp, bind, no_op, raise, ret. cbn.
  unfold bind, ret. destruct (dnum x) as [z|] eqn:N; cbn; [|apply R2; reflexivity]. destruct (Z.ltb z 1); cbn; [apply R1|]. rewrite N. cbn. apply R1.
Qed.
Lemma dial_program : forall (rule : rstate -> option exc -> rstate -> Prop) fz,
  (forall w, rule w None w) -> (forall w e, is_Exception e = true -> rule w (Some e) w) -> program_obeys (demo_rt 0) rule (dial_ctx fz NoDefault).
Proof.
  intros rule fz R1 R2. split; [apply Hist_main.demo_obey; assumption|].
  assert (D0 : class_obeys (demo_rt 0) rule (made_of (dial_decl fz NoDefault))).
  { apply (Spec_Hist.class_obeys_made _ _ (dial_decl fz NoDefault)).
    - apply dial_made. left. reflexivity.
    - repeat constructor; simpl; tauto.
    - constructor.
      + intros k a t [H|[]] HT. injection H as <- <-. cbn in HT. destruct HT as [<-|[]]. apply dial_token_obeys; assumption.
      + intros k key t [].
      + intros k g E. cbn in E. destruct (String.eqb k "x"); discriminate.
      + intros k p v [].
      + intros x w. apply R1.
    - intros b [H|[]]. discriminate. }
  intros t c E. destruct t as [| | | | | | | | | | | | |[|[|]]]; cbn in E; try discriminate; injection E as <-; (split; [destruct fz; reflexivity|]); [exact D0|].
  apply (Spec_Hist.class_obeys_made _ _ (subdial_decl fz NoDefault)).
  - apply subdial_made.
  - repeat constructor; simpl; tauto.
  - constructor.
    + intros k a t [H|[]] HT. injection H as <- <-. destruct HT.
    + intros k key t [].
    + intros k g E. discriminate.
    + intros k p v [].
    + intros x w. apply R1.
  - intros b [H|[]]. injection H as <-. exact D0.
Qed.

Lemma c134_default_refuted_proof : forall z : Z, (z < 1 \/ 5 < z)%Z -> exists c w,
  declares (demo_rt 0) (dial_decl true (DefVal (DInt z))) c "x" TInt [dial_token] /\
  construct (demo_rt 0) 1 c None [] w0 = (Ok (DRef (TRec 0) 0), w) /\
  good_everywhere (demo_rt 0) (dial_ctx true (DefVal (DInt z))) c "x" between_1_5 w0 /\
  ~ good_everywhere (demo_rt 0) (dial_ctx true (DefVal (DInt z))) c "x" between_1_5 w.
Proof.
  intros z OUT. exists (made_of (dial_decl true (DefVal (DInt z)))). eexists. split; [|split; [reflexivity|split]].
  - apply (dial_declares true (DefVal (DInt z))). right. eexists. reflexivity.
  - intros x i c' v HL. unfold lookup in HL. destruct (deref (demo_rt 0) x) as [[|]|]; discriminate.
  - intros G. destruct (G (DRef (TRec 0) 0) _ _ (DInt z) eq_refl eq_refl (descends_self _ _) eq_refl) as [A B].
    specialize (A _ eq_refl). specialize (B _ eq_refl). unfold num_lt, num_or_0 in A, B. cbn [dnum dint] in A, B. apply Z.ltb_ge in A, B. lia.
Qed.
