(** Crowd_main.v -- proofs of the properties stated in Props_Crowd.v: records made while other threads run *)

From Verif Require Import Base Py Select Filler Spec_Filler Spec_State Classes Spec_Classes Runtime Record Spec_Record Spec_Inst Spec_Hist Threads Crowd Spec_Crowd Demo DemoRt DemoCls.
From Verif Require Dict_proofs Filler_proofs Filler_main Filler_obl Classes_proofs Record_proofs Classes_main New_main State_main Hist_proofs Hist_main.
Open Scope string_scope.
Open Scope list_scope.

Import State_main.

Lemma crowd_honest : forall {obj ty W E} (act : E -> W -> W) grown (P : Py obj ty W), honest_containers P -> honest_containers (crowd_py act grown P).
Proof.
  intros obj ty W E act grown P [H1 H2]. split; intros rk v es s r s' H; cbn [rebuild rebuild_map crowd_py] in H; apply single_ok in H; destruct H as (w' & H & _).
  - exact (H1 rk v es (fst s) r w' H).
  - exact (H2 rk v es (fst s) r w' H).
Qed.

Lemma same_sym : forall {A} (o1 o2 : outcome A), same_outcome o1 o2 -> same_outcome o2 o1.
Proof. intros A [a|e] [b|e'] H; cbn in *; congruence. Qed.
Lemma same_trans : forall {A} (o1 o2 o3 : outcome A), same_outcome o1 o2 -> same_outcome o2 o3 -> same_outcome o1 o3.
Proof. intros A [a|e] [b|e'] [c|e''] H1 H2; cbn in *; try contradiction; congruence. Qed.

Lemma among_always : forall {W E A} (act : E -> W -> W) (p : @proc W A) o, always p o -> forall s, same_outcome o (fst (among act p s)).
Proof.
  intros W E A act. fix IH 1. intros [o'|k] o H s; cbn in *; [exact H|].
  specialize (H (fst s)). destruct (k (fst s)) as [p' w']. cbn in H. apply (IH p' o H).
Qed.

Lemma steady_blind : forall {obj W E} (act : E -> W -> W) (f : @callback obj (@crowd W E)), steady act f -> forall x, state_blind (f x).
Proof.
  intros obj W E act f H x s1 s2. destruct (H x) as (p & o & HA & HF). rewrite !HF.
  eapply same_trans; [apply same_sym|]; apply among_always; exact HA.
Qed.
Lemma token_steady_blind : forall {obj ty W E} (act : E -> W -> W) (t : @token obj ty (@crowd W E)), token_steady act t -> token_blind t.
Proof.
  intros obj ty W E act t H. destruct t as [s|c|[g|]|]; cbn in *; try exact I.
  - revert c H. fix IH 1. intros [g| |cs|] H; cbn in *; try exact I.
    + intros o f G x. eapply steady_blind. eapply H. exact G.
    + induction cs as [|c r IHr]; [exact I|]. destruct H as [H1 H2]. split; [apply IH; exact H1|apply IHr; exact H2].
  - intros o f G x. eapply steady_blind. eapply H. exact G.
Qed.
Lemma single_blind : forall {W E A} (act : E -> W -> W) (m : M W A), state_blind m -> state_blind (single act m).
Proof.
  intros W E A act m H s1 s2. unfold single, atom. cbn. specialize (H (fst s1) (fst s2)).
  destruct (m (fst s1)) as [o1 w1], (m (fst s2)) as [o2 w2]. exact H.
Qed.
Lemma crowd_blind : forall {obj ty W E} (act : E -> W -> W) grown (P : Py obj ty W), runtime_blind P -> runtime_blind (crowd_py act grown P).
Proof.
  intros obj ty W E act grown P (H1 & H2 & H3 & H4). split; [|split; [|split; [|exact H4]]]; intros; cbn [rebuild rebuild_map eq_int crowd_py]; apply single_blind; auto.
Qed.

Lemma c119_alone_proof : forall {W E A} (act : E -> W -> W) (p : @proc W A) w,
  among act p (w, []) = (fst (run p w), (snd (run p w), [])).
Proof.
  intros W E A act. fix IH 1. intros [o|k] w; [reflexivity|]. cbn. destruct (k w) as [p' w']. apply IH.
Qed.

Lemma c119_types_proof : forall {obj ty W E} (act : E -> W -> W) grown (P : Py obj ty W) dflt h ops f,
  honest_containers P ->
  make_filler (crowd_py act grown P) dflt h ops = Ok f ->
  Forall asserting (hint_tokens h ++ map snd ops) ->
  forall x w acts y s', call (crowd_py act grown P) f x (w, acts) = (Ok y, s') ->
  conforms (crowd_py act grown P) dflt (sub_ops ops) (own_ops ops) [] h y.
Proof.
  intros obj ty W E act grown P dflt h ops f HH HM HA x w acts y s' H.
  eapply Filler_main.c02_type_soundness_proof; try eassumption. apply crowd_honest. exact HH.
Qed.

Lemma c119_same_partial_proof : forall {obj ty W E} (act : E -> W -> W) grown (P : Py obj ty W) dflt h ops f,
  runtime_blind P ->
  make_filler (crowd_py act grown P) dflt h ops = Ok f ->
  Forall (token_steady act) (hint_tokens h ++ map snd ops) ->
  literals_left_alone h ops ->
  forall x w1 acts1 w2 acts2,
  same_outcome (fst (call (crowd_py act grown P) f x (w1, acts1))) (fst (call (crowd_py act grown P) f x (w2, acts2))).
Proof.
  intros obj ty W E act grown P dflt h ops f HB HM HT HL x w1 acts1 w2 acts2.
  eapply c14_fields_partial_proof; try eassumption; [apply crowd_blind; exact HB|].
  eapply Forall_impl; [|exact HT]. intros t. apply token_steady_blind.
Qed.

Lemma c119_records_partial_proof : forall {obj ty W E} (act : E -> W -> W) (R : Rt obj ty W) c n kw w s1 acts x1,
  let C := crowd_rt act R in
  made (rt_py C) c -> no_post_new C c -> no_reserved kw -> dict_ok kw ->
  runtime_blind (rt_py R) ->
  (forall k f, dget k (c_fields c) = Some f -> exists dflt h ops,
     make_filler (rt_py C) dflt h ops = Ok (f_filler f) /\
     Forall (token_steady act) (hint_tokens h ++ map snd ops) /\ literals_left_alone h ops) ->
  (forall k f g s, dget k (c_fields c) = Some f -> f_default f = DefFactory g -> exists v s', g s = (Ok v, s')) ->
  construct C n c None kw (w, []) = (Ok x1, s1) ->
  exists x2 s2 i1 i2,
    construct C n c None kw (w, acts) = (Ok x2, s2) /\
    lookup R (fst s1) x1 = Some i1 /\ lookup R (fst s2) x2 = Some i2 /\
    forall k, In k (keys kw) -> dget k (i_dict i1) <> None /\ dget k (i_dict i1) = dget k (i_dict i2).
Proof.
  intros obj ty W E act R c n kw w s1 acts x1 C HM HP HR HD HB HF HG H.
  destruct (@c14_records_partial_proof obj ty _ C c n kw (w, []) (w, acts) x1 s1) as (x2 & s2 & i1 & i2 & E1 & E2 & E3 & E4); try assumption.
  - apply crowd_blind. exact HB.
  - intros k f EK. destruct (HF k f EK) as (dflt & h & ops & F1 & F2 & F3). exists dflt, h, ops. split; [exact F1|]. split; [|exact F3].
    eapply Forall_impl; [|exact F2]. intros t. apply token_steady_blind.
  - exists x2, s2, i1, i2. split; [exact E1|]. split; [exact E2|]. split; [exact E3|exact E4].
Qed.

Lemma among_obeys : forall {W E A} (act : E -> W -> W) (K : W -> W -> Prop),
  (forall w, K w w) -> (forall a b c, K a b -> K b c -> K a c) -> (forall e w, K w (act e w)) ->
  forall p : @proc W A, steps_keep K p -> obeys (keeping (fun s s' : @crowd W E => K (fst s) (fst s'))) (among act p).
Proof.
  intros W E A act K KR KT KO. fix IH 1. intros [o|k] H s; cbn [among].
  - destruct o; apply KR.
  - cbn in H. destruct (H (fst s)) as [H1 H2]. destruct (k (fst s)) as [p' w'] eqn:EK. cbn in H1, H2.
    specialize (IH p' H2 (others act (w', snd s))).
    assert (KS : K (fst s) (fst (others act (w', snd s)))).
    { destruct s as [w [|e es]]; cbn in *; [exact H1|]. eapply KT; [exact H1|apply KO]. }
    destruct (among act p' (others act (w', snd s))) as [[a|e] s']; unfold keeping in *; eapply KT; eassumption.
Qed.
Lemma single_obeys : forall {W E A} (act : E -> W -> W) (K : W -> W -> Prop),
  (forall w, K w w) -> (forall a b c, K a b -> K b c -> K a c) -> (forall e w, K w (act e w)) ->
  forall m : M W A, obeys (keeping K) m -> obeys (keeping (fun s s' : @crowd W E => K (fst s) (fst s'))) (single act m).
Proof.
  intros W E A act K KR KT KO m H. apply among_obeys; try assumption. cbn. intro w. specialize (H w).
  destruct (m w) as [[a|e] w']; cbn; (split; [exact H|exact I]).
Qed.
Lemma crowd_objects : forall {obj ty W E} (act : E -> W -> W) (R : Rt obj ty W) (K : W -> W -> Prop),
  (forall w, K w w) -> (forall a b c, K a b -> K b c -> K a c) -> (forall e w, K w (act e w)) ->
  objects_obey R (keeping K) -> objects_obey (crowd_rt act R) (keeping (fun s s' => K (fst s) (fst s'))).
Proof.
  intros obj ty W E act R K KR KT KO H. destruct H. constructor; intros; cbn; try (apply single_obeys; auto; fail).
  - intros s. cbn. unfold lift, keeping. destruct (issubclass (rt_py R) v b); apply KR.
  - intros s. apply KR.
  - unfold crowd_truth. destruct (py_is _ _ _); [intros s; apply KR|apply single_obeys; auto].
Qed.
Lemma obeys_weaker : forall {W A} (r r' : W -> option exc -> W -> Prop) (m : M W A), (forall w o w', r w o w' -> r' w o w') -> obeys r m -> obeys r' m.
Proof. intros W A r r' m HI H w. specialize (H w). destruct (m w) as [[a|e] w']; apply HI; exact H. Qed.
Lemma objects_weaker : forall {obj ty W} (R : Rt obj ty W) (r r' : W -> option exc -> W -> Prop), (forall w o w', r w o w' -> r' w o w') -> objects_obey R r -> objects_obey R r'.
Proof. intros obj ty W R r r' HI H. destruct H. constructor; intros; eapply obeys_weaker; eauto. Qed.

Lemma c119_always_partial_proof : forall {obj ty W E} (act : E -> W -> W) (R : Rt obj ty W),
  let C := crowd_rt act R in
  forall ctx (Q : ty -> string -> obj -> Prop),
  let right := fun w : W => all_right C ctx Q (w, []) in
  (forall e w, right w -> right (act e w)) ->
  objects_obey R (keeping (fun w w' => right w -> right w')) ->
  (forall t c, ctx t = Some c -> c_ty c = t /\ class_obeys C (keeping (stays_right C ctx Q)) c /\ guarantees C Q c) ->
  forall l w acts,
  (forall a, In a l -> allowed ctx (stays_right C ctx Q) a) -> assigns_right C ctx Q l (w, acts) ->
  right w -> right (fst (after_all C ctx l (w, acts))).
Proof.
  intros obj ty W E act R C ctx Q right HO HB HC l w acts HA HS HR.
  assert (RI : forall s, all_right C ctx Q s <-> right (fst s)). { intros s. split; intros H x i c k v HL; exact (H x i c k v HL). }
  apply (proj1 (RI _)). apply (@Hist_main.c99_always_partial_proof obj ty _ C ctx Q).
  - split.
    + eapply objects_weaker; [|apply (crowd_objects act R (fun w w' => right w -> right w')); auto; intros e w0; apply HO].
      intros s o s' H1 H2. apply (proj2 (RI _)). apply H1. apply (proj1 (RI _)). exact H2.
    + intros t c EC. destruct (HC t c EC) as (H1 & H2 & _). split; assumption.
  - intros t c EC. exact (proj2 (proj2 (HC t c EC))).
  - exact HA.
  - exact HS.
  - apply (proj2 (RI _)). exact HR.
Qed.

Lemma c119_literal_refuted_proof :
  exists (hx : forall W, @hint dobj dty W) (c : @cls dobj dty rstate) e1 w1 (act : unit -> rstate -> rstate) (C := crowd_rt act (demo_rt 0)) d (cc : @cls dobj dty (@crowd rstate unit)) x s2 e3 s3,
    (forall W, hx W = HAnn (HLiteral 0 [DStr "a"]) [TCoerce (CGlobal (fun _ => Ok (fun v => ret (match v with DInt 7 => DStr "a" | _ => v end))))]) /\
    (exists d0, make_class rt0 d0 = Ok c /\ d_anns d0 = [("x", AHint (hx _) [])]) /\
    construct (demo_rt 0) 1 c None [("x", DInt 5)] w0 = (Raise e1, w1) /\
    (forall w, act tt w = snd (construct (demo_rt 0) 1 c None [("x", DInt 5)] w)) /\
    make_class (rt_py C) d = Ok cc /\ made (rt_py C) cc /\
    d_anns d = [("y", AHint (HTy TInt) [ATok (TValid (VGlobal (fun _ => Ok (fun v => single act (ret v)))))]); ("x", AHint (hx _) [])] /\
    construct C 1 cc None [("y", DInt 1); ("x", DInt 7)] (w0, []) = (Ok x, s2) /\
    construct C 1 cc None [("y", DInt 1); ("x", DInt 7)] (w0, [tt]) = (Raise e3, s3).
Proof.
  pose (hx := fun W => HAnn (HLiteral 0 [DStr "a"]) [TCoerce (CGlobal (fun _ => Ok (fun v : dobj => @ret W _ (match v with DInt 7 => DStr "a" | _ => v end))))] : @hint dobj dty W).
  pose (d0 := rdecl 0 true false None SCheck [("x", (AHint (hx rstate) [], NoDefault))] [] no_post).
  pose (act := fun (_ : unit) w => snd (construct (demo_rt 0) 1 (made_of d0) None [("x", DInt 5)] w)).
  pose (dC := Decl (TRec 0) true false None SCheck
     [("y", AHint (HTy TInt) [ATok (TValid (VGlobal (fun _ => Ok (fun v => single act (ret v)))))]); ("x", AHint (hx (@crowd rstate unit)) [])] []
     (fun _ => NoDefault) [BOther] [] [] (fun _ => ret DNone)).
  exists hx, (made_of d0). do 2 eexists. exists act, dC. do 5 eexists.
  split; [reflexivity|]. split; [exists d0; split; reflexivity|]. split; [reflexivity|]. split; [reflexivity|]. split; [reflexivity|]. split.
  { apply made_class with (d := dC); [reflexivity| |intros b [H|[]]; discriminate]. repeat constructor; cbn; intuition discriminate. }
  split; [reflexivity|]. split; reflexivity.
Qed.
