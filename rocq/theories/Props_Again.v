(** Props_Again.v -- property theorems: making records again from their own data, at any time (Filler.fill, Record.from_mapping, copy and from_instance)
    Each theorem is closed by the lemma of the same statement in Again_main.v; the examples
    show that concrete, non-trivial cases meet the hypotheses. *)

From Verif Require Import Base Py Select Filler Spec_Filler Classes Spec_Classes Runtime Record Spec_Record Spec_Inst Spec_Copy Spec_Keywords Spec_Changes Spec_Settle Spec_Hist Spec_Again Demo DemoRt DemoCls.
From Verif Require Dict_proofs New_main Copy_main Filler_eqs Filler_shape Filler_main Filler_decl Classes_main Hist_main Changes_main Settle_main Props_Hist.
Open Scope string_scope.
Open Scope list_scope.

From Verif Require Import Again_main.

(** C156: the fields of such a class, also the inherited ones, store again what they stored: handed a
    value that it returned, a field returns that very object, and nothing else happens. *)
Theorem c156_fields : forall {obj ty W} (R : Rt obj ty W) c,
  settled_runtime (rt_py R) -> settling_class R c ->
  forall k f, dget k (c_fields c) = Some f ->
  forall x w y w', call (rt_py R) (f_filler f) x w = (Ok y, w') ->
  forall w1, call (rt_py R) (f_filler f) y w1 = (Ok y, w1).
Proof. exact (@c156_fields_proof). Qed.
Print Assumptions c156_fields.

(** C156: at any time, whatever the program did, every field of every record has a value that the field
    stores as it is. *)
Theorem c156_always : forall {obj ty W} (R : Rt obj ty W) ctx l w,
  settled_program R ctx l w -> all_right R ctx (kept_value R ctx) w ->
  all_right R ctx (kept_value R ctx) (after_all R ctx l w).
Proof. exact (@c156_always_proof). Qed.
Print Assumptions c156_always.

(** C156 for to_dict and from_mapping: at any time, a record can be made again from the dict it exports,
    and the new record is equal to it. *)
Theorem c156_mapping : forall {obj ty W} (R : Rt obj ty W) ctx D eqb hf l w n c x i,
  settled_program R ctx l w -> all_right R ctx (kept_value R ctx) w ->
  let now := after_all R ctx l w in
  instance_of R ctx c now x i -> Spec_Inst.accepts R ctx c (fieldwise eqb c i) -> fields_callable c -> comparable R D eqb hf c i ->
  exists d, to_dict R ctx x no_args sel_empty now = (Ok d, now) /\
    forall m, is_mapping R m d ->
    exists y w', from_mapping R (S n) c sel_empty [m] [] now = (Ok y, w') /\ equal_copy R ctx c now w' x y.
Proof. exact (@c156_mapping_proof). Qed.
Print Assumptions c156_mapping.

(** C156 for copy.copy: at any time, the copy of a record has the very objects that the record has, or
    the default of the field where the value equals it (C38). *)
Theorem c156_copy : forall {obj ty W} (R : Rt obj ty W) ctx D eqb l w n c x i,
  settled_program R ctx l w -> all_right R ctx (kept_value R ctx) w ->
  let now := after_all R ctx l w in
  instance_of R ctx c now x i -> Spec_Inst.accepts R ctx c (rebuilt eqb c i) -> fields_callable c -> c_frozen c = false ->
  has_eq R D eqb -> defaults_in D c -> values_in D c i ->
  exists y w' j, copy R ctx (S n) x now = (Ok y, w') /\ fresh_instance R ctx c now w' y j /\ all_kept R now w' /\ rebuilt eqb c i j.
Proof. exact (@c156_copy_proof). Qed.
Print Assumptions c156_copy.

(** C156 for changed copies: at any time, cls.from_instance(x, **changes) has the changes and otherwise
    the very objects of x (or the default, where the value equals it); nothing is assumed of the fields
    that are not changed but their declarations. *)
Theorem c156_changed : forall {obj ty W} (R : Rt obj ty W) ctx D eqb l w n c x i kw new,
  settled_program R ctx l w -> all_right R ctx (kept_value R ctx) w ->
  let now := after_all R ctx l w in
  instance_of R ctx c now x i -> fields_callable c -> has_eq R D eqb -> defaults_in D c -> values_in D c i ->
  dict_ok kw -> kw <> [] -> taken_as R c kw new -> Spec_Inst.accepts R ctx c (changed eqb c i new) ->
  exists y w' j, from_instance R (S n) c sel_empty x [] kw now = (Ok y, w') /\
    fresh_instance R ctx c now w' y j /\ all_kept R now w' /\ changed eqb c i new j.
Proof. exact (@c156_changed_proof). Qed.
Print Assumptions c156_changed.

Import Hist_main.
(** class A(RecordBase): x: Annotated[int, coercer]
    class B(A): y: Optional[int] = None
    The coercer reads the text "5".  No class is frozen. *)
Definition read5 : dobj -> M rstate dobj :=
  fun x w => (match x with DStr "5" => Ok (DInt 5) | _ => Raise (mkexc ValueError "") end, w).
Definition a_decl := rdecl 0 false false (Some false) SCheck
  [("x", (AHint (HTy TInt) [ATok (TCoerce (CGlobal (fun _ => Ok read5)))], NoDefault))] [] no_post.
Definition b_decl : @decl dobj dty rstate :=
  Decl (TRec 1) false false (Some false) SCheck [("y", AHint (HUnion [HTy TInt; HNone]) [])] ["x"]
       (fun k => if String.eqb k "y" then DefVal DNone else NoDefault) [BRecord (made_of a_decl)] [] [] no_post.
Definition ab_ctx (t : dty) : option (@cls dobj dty rstate) :=
  match t with TRec 0 => Some (made_of a_decl) | TRec 1 => Some (made_of b_decl) | _ => None end.
(** a record is made from text, a construction fails, a number is assigned, the record is copied *)
Definition again_history : list (@action dobj dty rstate) :=
  [ACall 1 (made_of b_decl) None [("x", DStr "5")]; ACall 1 (made_of a_decl) None [("x", DStr "6")];
   ASet (DRef (TRec 1) 0) "y" (DInt 7); ACopy 1 (DRef (TRec 1) 0); AEq (DRef (TRec 1) 0) (DRef (TRec 1) 1)].
Lemma a_settles : settling_class (demo_rt 0) (made_of a_decl).
Proof.
  apply (settling_made _ a_decl).
  - reflexivity.
  - repeat constructor; simpl; tauto.
  - intros b [H|[]]. discriminate.
  - intros k a E _. cbn in E. destruct (String.eqb k "x") eqn:EK; [|discriminate]. injection E as <-. exists []. split; [reflexivity|]. left.
    split; [|reflexivity]. cbn -[eff_style]. split; [discriminate|]. split; [discriminate|]. split; [left; reflexivity|repeat constructor].
Qed.
Lemma b_settles : settling_class (demo_rt 0) (made_of b_decl).
Proof.
  apply (settling_made _ b_decl).
  - reflexivity.
  - repeat constructor; simpl; tauto.
  - intros b [H|[]]. injection H as <-. exact a_settles.
  - intros k a E _. cbn in E. destruct (String.eqb k "y") eqn:EK; [|discriminate]. injection E as <-. exists []. split; [reflexivity|]. left.
    split; [|reflexivity]. cbn -[eff_style]. split; [discriminate|]. split; [constructor|]. split; [|split; [|exact I]].
    + split; [reflexivity|]. split; [left; reflexivity|]. split; [discriminate|]. split; [discriminate|]. split; [left; reflexivity|constructor].
    + split; [reflexivity|]. split; [left; reflexivity|]. split; [left; reflexivity|]. split; [reflexivity|constructor].
Qed.
Lemma a_obeys : forall K : rstate -> rstate -> Prop, (forall w, K w w) -> class_obeys (demo_rt 0) (keeping K) (made_of a_decl).
Proof.
  intros K HK. apply (Spec_Hist.class_obeys_made _ _ a_decl).
  - reflexivity.
  - repeat constructor; simpl; tauto.
  - constructor.
    + intros k a t [H|[]] HT. injection H as <- <-. cbn in HT. destruct HT as [<-|[]]. intros o f E x w. injection E as <-. unfold read5.
      destruct x; try apply HK. destruct s as [|[[] [] [] [] [] [] [] []] [|]]; apply HK.
    + intros k key t [].
    + intros k g E. cbn in E. destruct (String.eqb k "x"); discriminate.
    + intros k p v [].
    + intros x w. apply HK.
  - intros b [H|[]]. discriminate.
Qed.
Lemma b_obeys : forall K : rstate -> rstate -> Prop, (forall w, K w w) -> class_obeys (demo_rt 0) (keeping K) (made_of b_decl).
Proof.
  intros K HK. apply (Spec_Hist.class_obeys_made _ _ b_decl).
  - reflexivity.
  - repeat constructor; simpl; tauto.
  - constructor.
    + intros k a t [H|[]] HT. injection H as <- <-. destruct HT.
    + intros k key t [].
    + intros k g E. cbn in E. destruct (String.eqb k "y"); discriminate.
    + intros k p v [].
    + intros x w. apply HK.
  - intros b [H|[]]. injection H as <-. exact (a_obeys K HK).
Qed.
Lemma fields_of_b : forall k f, dget k (c_fields (made_of b_decl)) = Some f -> k = "x" \/ k = "y".
Proof.
  intros k f E. cbn in E. destruct (String.eqb_spec k "x") as [->|N]; [left; reflexivity|]. destruct (String.eqb_spec k "y") as [->|N2]; [right; reflexivity|discriminate].
Qed.
Example c156_case :
  settled_program (demo_rt 0) ab_ctx again_history w0 /\ all_right (demo_rt 0) ab_ctx (kept_value (demo_rt 0) ab_ctx) w0 /\
  let now := after_all (demo_rt 0) ab_ctx again_history w0 in
  exists i, instance_of (demo_rt 0) ab_ctx (made_of b_decl) now (DRef (TRec 1) 1) i /\ i_dict i = [("x", DInt 5); ("y", DInt 7)] /\
    fields_callable (made_of b_decl) /\
    to_dict (demo_rt 0) ab_ctx (DRef (TRec 1) 1) no_args sel_empty now = (Ok [("x", DInt 5); ("y", DInt 7)], now).
Proof.
  split; [|split].
  - split; [apply Settle_main.demo_settled|]. split; [|split; [|split]].
    + intros t c E. destruct t as [| | | | | | | | | | | | |[|[|]]]; cbn in E; try discriminate; injection E as <-.
      * split; [exact a_settles|]. intros k f EF w v w' HD. cbn in EF. destruct (String.eqb k "x"); [|discriminate]. injection EF as <-. inversion HD; discriminate.
      * split; [exact b_settles|]. intros k f EF w v w' HD. destruct (fields_of_b k f EF) as [-> | ->]; cbn in EF; injection EF as <-.
        { inversion HD; discriminate. }
        { inversion HD as [v' w1 ED|]; [|discriminate]. injection ED as <-. exists DNone, w0, w0. reflexivity. }
    + split; [apply demo_obey; [intros w H; exact H|intros w e _ H; exact H]|].
      intros t c E. destruct t as [| | | | | | | | | | | | |[|[|]]]; cbn in E; try discriminate; injection E as <-; (split; [reflexivity|]).
      * apply a_obeys. intros w H; exact H.
      * apply b_obeys. intros w H; exact H.
    + intros a HI. repeat destruct HI as [<-|HI]; try destruct HI; exact I || reflexivity.
    + repeat match goal with |- _ /\ _ => split | |- assigns_right _ _ _ _ _ => cbn [assigns_right again_history] end; try exact I.
      intros i c HL HC; vm_compute in HL; injection HL as <-; cbn in HC; injection HC as <-. right.
      intros c f EC EF w. cbn in EC. injection EC as <-. cbn in EF. injection EF as <-. reflexivity.
  - intros x i c k v HL. unfold lookup in HL. destruct (deref (demo_rt 0) x) as [[|]|]; discriminate.
  - eexists. split; [|split; [|split]].
    + split; [reflexivity|]. split; [vm_compute; reflexivity|]. split; [reflexivity|]. split; [reflexivity|].
      intros k [<-|[<-|[]]]; eexists; reflexivity.
    + reflexivity.
    + intros k [<-|[<-|[]]] HX; vm_compute in HX; repeat (destruct HX as [HX|HX]); discriminate || contradiction.
    + vm_compute. reflexivity.
Qed.
