(** Props_Crowd.v -- property theorems: records made while other threads run
    Each theorem is closed by the lemma of the same statement in Crowd_main.v; the examples
    show that concrete, non-trivial cases meet the hypotheses. *)

From Verif Require Import Base Py Select Filler Spec_Filler Spec_State Classes Spec_Classes Runtime Record Spec_Record Spec_Inst Spec_Hist Threads Crowd Spec_Crowd Demo DemoRt DemoCls.
From Verif Require Dict_proofs Filler_proofs Filler_main Filler_obl Classes_proofs Record_proofs Classes_main New_main State_main Hist_proofs Hist_main.
Open Scope string_scope.
Open Scope list_scope.

From Verif Require Import Crowd_main.

(** A computation among other threads that do nothing is the computation in Threads.v, all
    steps at once. *)
Theorem c119_alone : forall {W E A} (act : E -> W -> W) (p : @proc W A) w,
  among act p (w, []) = (fst (run p w), (snd (run p w), [])).
Proof. exact (@c119_alone_proof). Qed.
Print Assumptions c119_alone.

(** C119: whatever other threads do between the steps, what the filler of a field returns is
    of the declared type, to any depth, with validators that only assert and containers whose
    constructors keep their promise (as C02). *)
Theorem c119_types : forall {obj ty W E} (act : E -> W -> W) grown (P : Py obj ty W) dflt h ops f,
  honest_containers P ->
  make_filler (crowd_py act grown P) dflt h ops = Ok f ->
  Forall asserting (hint_tokens h ++ map snd ops) ->
  forall x w acts y s', call (crowd_py act grown P) f x (w, acts) = (Ok y, s') ->
  conforms (crowd_py act grown P) dflt (sub_ops ops) (own_ops ops) [] h y.
Proof. exact (@c119_types_proof). Qed.
Print Assumptions c119_types.

(** C119, what does hold: if the outcome of each coercer and validator of a field depends only on its argument,
    and none applies to a Literal, then filling comes to the same whatever other threads do
    meanwhile: to the same as alone ([acts1 = []]). *)
Theorem c119_same_partial : forall {obj ty W E} (act : E -> W -> W) grown (P : Py obj ty W) dflt h ops f,
  runtime_blind P ->
  make_filler (crowd_py act grown P) dflt h ops = Ok f ->
  Forall (token_steady act) (hint_tokens h ++ map snd ops) ->
  literals_left_alone h ops ->
  forall x w1 acts1 w2 acts2,
  same_outcome (fst (call (crowd_py act grown P) f x (w1, acts1))) (fst (call (crowd_py act grown P) f x (w2, acts2))).
Proof. exact (@c119_same_partial_proof). Qed.
Print Assumptions c119_same_partial.

(** C119, what does hold: arguments that make a record alone make one while other threads run, and the passed
    fields hold the same objects. *)
Theorem c119_records_partial : forall {obj ty W E} (act : E -> W -> W) (R : Rt obj ty W) c n kw w s1 acts x1,
  let C := crowd_rt act R in
  made (rt_py C) c -> no_post_new C c -> no_reserved kw -> dict_ok kw ->
  runtime_blind (rt_py R) ->
  (forall k f, dget k (c_fields c) = Some f -> exists dflt h ops,
     make_filler (rt_py C) dflt h ops = Ok (f_filler f) /\
     Forall (token_steady act) (hint_tokens h ++ map snd ops) /\ literals_left_alone h ops) ->
  (forall k f g s, dget k (c_fields c) = Some f -> f_default f = DefFactory g -> exists v s', g s = (Ok v, s')) ->
  construct C n c None kw (w, []) = (Ok x1, s1) ->
  exists x2 s2 i1 i2,
    construct C n c None kw (w, acts) = (Ok x2, s2) /\
    lookup R (fst s1) x1 = Some i1 /\ lookup R (fst s2) x2 = Some i2 /\
    forall k, In k (keys kw) -> dget k (i_dict i1) <> None /\ dget k (i_dict i1) = dget k (i_dict i2).
Proof. exact (@c119_records_partial_proof). Qed.
Print Assumptions c119_records_partial.

(** C119, with C99: what the fillers and defaults of fields guarantee of the values they give
    holds of all fields of all records at any time, whatever this thread does, in any order,
    while other threads act between its steps, as long as what the others do keeps it. *)
Theorem c119_always_partial : forall {obj ty W E} (act : E -> W -> W) (R : Rt obj ty W),
  let C := crowd_rt act R in
  forall ctx (Q : ty -> string -> obj -> Prop),
  let right := fun w : W => all_right C ctx Q (w, []) in
  (forall e w, right w -> right (act e w)) ->
  objects_obey R (keeping (fun w w' => right w -> right w')) ->
  (forall t c, ctx t = Some c -> c_ty c = t /\ class_obeys C (keeping (stays_right C ctx Q)) c /\ guarantees C Q c) ->
  forall l w acts,
  (forall a, In a l -> allowed ctx (stays_right C ctx Q) a) -> assigns_right C ctx Q l (w, acts) ->
  right w -> right (fst (after_all C ctx l (w, acts))).
Proof. exact (@c119_always_partial_proof). Qed.
Print Assumptions c119_always_partial.

(** C119 does not hold in general: the field x is a Literal with a coercer that turns 7 into a
    literal, and another thread fails to construct a record of the same class from 5 meanwhile.
    Alone the construction succeeds; if the other thread acts after the first step, it raises. *)
Theorem c119_literal_refuted :
  exists (hx : forall W, @hint dobj dty W) (c : @cls dobj dty rstate) e1 w1 (act : unit -> rstate -> rstate) (C := crowd_rt act (demo_rt 0)) d (cc : @cls dobj dty (@crowd rstate unit)) x s2 e3 s3,
    (forall W, hx W = HAnn (HLiteral 0 [DStr "a"]) [TCoerce (CGlobal (fun _ => Ok (fun v => ret (match v with DInt 7 => DStr "a" | _ => v end))))]) /\
    (exists d0, make_class rt0 d0 = Ok c /\ d_anns d0 = [("x", AHint (hx _) [])]) /\
    construct (demo_rt 0) 1 c None [("x", DInt 5)] w0 = (Raise e1, w1) /\
    (forall w, act tt w = snd (construct (demo_rt 0) 1 c None [("x", DInt 5)] w)) /\
    make_class (rt_py C) d = Ok cc /\ made (rt_py C) cc /\
    d_anns d = [("y", AHint (HTy TInt) [ATok (TValid (VGlobal (fun _ => Ok (fun v => single act (ret v)))))]); ("x", AHint (hx _) [])] /\
    construct C 1 cc None [("y", DInt 1); ("x", DInt 7)] (w0, []) = (Ok x, s2) /\
    construct C 1 cc None [("y", DInt 1); ("x", DInt 7)] (w0, [tt]) = (Raise e3, s3).
Proof. exact (@c119_literal_refuted_proof). Qed.
Print Assumptions c119_literal_refuted.

From Verif Require Props_Filler.

(** what other threads do: they make records of the same class and write a log *)
Definition make_other (z : Z) (w : rstate) : rstate :=
  RState ((0, TInt) :: rs_lit w) (rs_heap w ++ [Inst (TRec 0) [("x", DInt z); ("y", DInt 3)] SNone]) (DInt z :: rs_log w).
(** a coercer in two steps, both of which look at the state *)
Definition slow_int (v : dobj) : @proc rstate dobj :=
  Step (fun w => (Step (fun w' => (Done (if dis v (DStr "7") then Ok (DInt 7) else Raise (mkexc ValueError "")),
                                   RState (rs_lit w') (rs_heap w') (v :: rs_log w' ++ rs_log w))), w)).
Definition slow_tok : @token dobj dty (@crowd rstate Z) := TCoerce (CGlobal (fun _ => Ok (fun v => among make_other (slow_int v)))).
Definition busy_rt := crowd_rt make_other (demo_rt 0).
Definition busy_decl : @decl dobj dty (@crowd rstate Z) :=
  Decl (TRec 0) true false None SCheck
    [("x", AHint (HTy TInt) [ATok slow_tok]); ("y", AHint (HTy TInt) [])] []
    (fun k => if String.eqb k "y" then DefVal (DInt 3) else NoDefault) [BOther] [] [] (fun _ => ret DNone).
Definition busy_cls : @cls dobj dty (@crowd rstate Z) :=
  match make_class (rt_py busy_rt) busy_decl with Ok c => c | Raise _ => Cls TNone [] true false false false SCheck [] (fun _ => ret DNone) end.
Lemma slow_steady : token_steady make_other slow_tok.
Proof.
  cbn. intros o f [= <-] x. exists (slow_int x), (if dis x (DStr "7") then Ok (DInt 7) else Raise (mkexc ValueError "")).
  split; [|reflexivity]. intros w1 w2. destruct (dis x (DStr "7")); reflexivity.
Qed.
Lemma busy_made : made (rt_py busy_rt) busy_cls.
Proof.
  apply made_class with (d := busy_decl); [reflexivity| |intros b [H|[]]; discriminate]. repeat constructor; cbn; intuition discriminate.
Qed.
Lemma busy_fields : forall k f, dget k (c_fields busy_cls) = Some f -> exists dflt h ops,
     make_filler (rt_py busy_rt) dflt h ops = Ok (f_filler f) /\
     Forall (token_steady make_other) (hint_tokens h ++ map snd ops) /\ literals_left_alone h ops.
Proof.
  intros k f E. cbn in E. destruct (String.eqb k "x"); [injection E as <-|destruct (String.eqb k "y"); [injection E as <-|discriminate]].
  - exists SCheck, (HAnn (HTy TInt) [slow_tok]), []. split; [reflexivity|]. split; [repeat constructor; exact slow_steady|].
    split; [exact I|left; constructor].
  - exists SCheck, (HTy TInt), []. split; [reflexivity|]. split; [constructor|]. split; [exact I|left; constructor].
Qed.
Example c119_case : exists x1 s1 x2 s2,
  construct busy_rt 1 busy_cls None [("x", DStr "7")] (w0, []) = (Ok x1, s1) /\
  construct busy_rt 1 busy_cls None [("x", DStr "7")] (w0, [4; 5; 6]%Z) = (Ok x2, s2) /\
  x1 <> x2 /\ List.length (rs_heap (fst s2)) = 3 /\ snd s2 = [6%Z] /\
  runtime_blind (rt_py (demo_rt 0)) /\ no_post_new busy_rt busy_cls /\ honest_containers (rt_py (demo_rt 0)).
Proof.
  do 4 eexists. split; [vm_compute; reflexivity|]. split; [vm_compute; reflexivity|]. split; [discriminate|]. split; [reflexivity|]. split; [reflexivity|].
  split; [|split].
  - split; [|split; [|split; [|exact dhash_error_Exception]]]; intros; intros w1 w2; cbn; try reflexivity; destruct v; reflexivity.
  - intros x w; reflexivity.
  - apply Props_Filler.demo_honest.
Qed.

Definition busy_ctx (t : dty) : option (@cls dobj dty (@crowd rstate Z)) := match t with TRec 0 => Some busy_cls | _ => None end.
Definition an_int (_ : dty) (_ : string) (v : dobj) : Prop := isinstance rt0 v TInt = true.
Definition busy_right (w : rstate) : Prop := all_right busy_rt busy_ctx an_int (w, []).
Lemma others_right : forall z w, busy_right w -> busy_right (make_other z w).
Proof.
  intros z w H x i c k v HL HC HI HV. unfold lookup in HL. cbn [heap busy_rt crowd_rt fst demo_rt] in HL.
  destruct (deref busy_rt x) as [n|] eqn:D; [|discriminate]. unfold make_other in HL. cbn in HL.
  destruct (Nat.lt_ge_cases n (List.length (rs_heap w))) as [L|L].
  - rewrite nth_error_app1 in HL by exact L. apply (H x i c k v); try assumption. unfold lookup. rewrite D. exact HL.
  - rewrite nth_error_app2 in HL by exact L. destruct (n - List.length (rs_heap w)) as [|[|]]; try discriminate. injection HL as <-.
    cbn in HV. destruct (String.eqb k "x"); [injection HV as <-; reflexivity|]. destruct (String.eqb k "y"); [injection HV as <-; reflexivity|discriminate].
Qed.
Lemma right_same : forall w w', rs_heap w' = rs_heap w -> busy_right w -> busy_right w'.
Proof. intros w w' E H x i c k v HL. apply (H x i c k v). unfold lookup in *. cbn in *. rewrite <- E. exact HL. Qed.
Lemma busy_obeys : class_obeys busy_rt (keeping (stays_right busy_rt busy_ctx an_int)) busy_cls.
Proof.
  apply (class_obeys_made _ _ busy_decl); [reflexivity|repeat constructor; cbn; intuition discriminate| |intros b [H|[]]; discriminate].
  assert (ST : forall s s' : @crowd rstate Z, (busy_right (fst s) -> busy_right (fst s')) -> stays_right busy_rt busy_ctx an_int s s').
  { intros s s' H A x i c k v HL. refine (H _ x i c k v HL). intros x' i' c' k' v' HL'. exact (A x' i' c' k' v' HL'). }
  constructor.
  - intros k a t [H|[H|[]]] HT; injection H as <- <-; cbn in HT; [|contradiction]. destruct HT as [<-|[]]. intros o f [= <-] x.
    pose proof (@among_obeys rstate Z dobj make_other (fun w w' => busy_right w -> busy_right w')) as AO.
    specialize (AO (fun w H => H) (fun a b c F G H => G (F H)) others_right (slow_int x)).
    assert (SK : steps_keep (fun w w' => busy_right w -> busy_right w') (slow_int x)).
    { intro w. split; [intro H; exact H|]. intro w'. split; [apply right_same; reflexivity|exact I]. }
    specialize (AO SK). refine (obeys_weaker _ _ _ _ AO). intros s u s'. apply ST.
  - intros k key t [].
  - intros k g E. cbn in E. destruct (String.eqb k "y"); discriminate.
  - intros k p v [].
  - intros x s H. exact H.
Qed.
Lemma busy_guarantees : guarantees busy_rt an_int busy_cls.
Proof.
  intros k f EF. cbn in EF. destruct (String.eqb k "x"); [injection EF as <-|destruct (String.eqb k "y"); [injection EF as <-|discriminate]].
  - split; [|split; [intros d E; discriminate|intros g w y w' E; discriminate]]. intros v s y s' EC.
    assert (CF := c119_types make_other (fun s => s) (rt_py (demo_rt 0)) SCheck (HAnn (HTy TInt) [slow_tok]) [] _
      (Props_Filler.demo_honest _ _ _) eq_refl (Forall_cons slow_tok I (Forall_nil _)) v (fst s) (snd s) y s').
    destruct s as [w acts]. specialize (CF EC). clear EC. cbn in CF.
    change (dsub (dtype y) TInt = true). destruct CF as [[-> | H] _]; [reflexivity|exact H].
  - split; [|split; [intros d [= <-]; reflexivity|intros g w y w' E; discriminate]]. intros v s y s' EC.
    assert (CF := c119_types make_other (fun s => s) (rt_py (demo_rt 0)) SCheck (HTy TInt) [] _
      (Props_Filler.demo_honest _ _ _) eq_refl (Forall_nil _) v (fst s) (snd s) y s').
    destruct s as [w acts]. specialize (CF EC). clear EC. cbn in CF.
    change (dsub (dtype y) TInt = true). destruct CF as [[-> | H] _]; [reflexivity|exact H].
Qed.
Example c119_always_case : busy_right (fst (after_all busy_rt busy_ctx
  [ACall 1 busy_cls None [("x", DStr "7")]; ACall 1 busy_cls None [("x", DStr "8")]; ASet (DRef (TRec 0) 0) "x" DNone; ADeepcopy 1 (DRef (TRec 0) 0)] (w0, [1; 2; 3; 4; 5]%Z))).
Proof.
  apply c119_always_partial.
  - exact others_right.
  - apply Hist_main.demo_obey; [intros w H; exact H|intros w e _ H; exact H].
  - intros t c E. destruct t as [| | | | | | | | | | | | |[|]]; cbn in E; try discriminate. injection E as <-.
    split; [reflexivity|]. split; [exact busy_obeys|exact busy_guarantees].
  - intros a HI. repeat destruct HI as [<-|HI]; try destruct HI; exact I || reflexivity.
  - repeat match goal with |- _ /\ _ => split | |- assigns_right _ _ _ _ _ => cbn [assigns_right] end; try exact I.
    intros i c HL HC. left. destruct (i_cls i) as [| | | | | | | | | | | | |[|]]; cbn in HC; try discriminate. injection HC as <-. reflexivity.
  - intros x i c k v HL. unfold lookup in HL. cbn in HL. destruct x; try discriminate. destruct n; discriminate.
Qed.
