(** Props_Copy.v -- property theorems: exporting and rebuilding record instances: from_mapping, JSON, copy, deepcopy, pickle, from_instance
    Each theorem is closed by the lemma of the same statement in Copy_main.v; the examples
    show that concrete, non-trivial cases meet the hypotheses. *)

From Verif Require Import Base Py Select Filler Classes Spec_Classes Runtime Record Spec_Record Spec_Inst Spec_Copy Demo DemoRt DemoCls.
From Verif Require Dict_proofs Filler_proofs Classes_proofs Record_proofs Classes_main Inst_proofs Inst_main Copy_proofs.
Open Scope string_scope.
Open Scope list_scope.

From Verif Require Import Copy_main.

(** C36: if the fillers return the stored values unchanged, p.to_dict() can be passed to
    from_mapping, which gives a new record equal to p. *)
Theorem c36_mapping : forall {obj ty W} (R : Rt obj ty W) ctx D eqb hf n c w x i,
  made (rt_py R) c -> accepts R ctx c (fieldwise eqb c i) -> fields_callable c ->
  instance_of R ctx c w x i -> comparable R D eqb hf c i -> stored_fixed R c i ->
  exists d, to_dict R ctx x no_args sel_empty w = (Ok d, w) /\
    forall m, is_mapping R m d ->
    exists y w', from_mapping R (S n) c sel_empty [m] [] w = (Ok y, w') /\ equal_copy R ctx c w w' x y.
Proof. exact (@c36_mapping_proof). Qed.
Print Assumptions c36_mapping.

(** C39: if json.loads gives back the exported items, up to values that the fillers turn
    back into equal ones, then from_json(p.to_json()) is a new record equal to p. *)
Theorem c39_json : forall {obj ty W} (R : Rt obj ty W) ctx D eqb hf n c w x i,
  made (rt_py R) c -> accepts R ctx c (fieldwise eqb c i) -> fields_callable c ->
  instance_of R ctx c w x i -> comparable R D eqb hf c i ->
  exists d, to_dict R ctx x no_args sel_empty w = (Ok d, w) /\
    forall t w1 o w2 d' w3, json_dumps R d w = (Ok t, w1) -> json_loads R t w1 = (Ok o, w2) -> unpack R o w2 = (Ok d', w3) ->
    all_kept R w w3 -> keys d' = keys d -> restores R D eqb hf c i d' ->
    to_json R ctx x no_args sel_empty w = (Ok t, w1) /\
    exists y w', from_json R (S n) c sel_empty t w1 = (Ok y, w') /\ equal_copy R ctx c w3 w' x y.
Proof. exact (@c39_json_proof). Qed.
Print Assumptions c39_json.

(** C38 holds for frozen records, which copy.copy returns as they are. *)
Theorem c38_frozen_partial : forall {obj ty W} (R : Rt obj ty W) ctx n c w x i,
  instance_of R ctx c w x i -> c_frozen c = true -> copy R ctx n x w = (Ok x, w).
Proof. exact (@c38_frozen_partial_proof). Qed.
Print Assumptions c38_frozen_partial.

(** C38 holds for the attributes that are not equal to the default of their field: the
    copy of a record that is not frozen has the very same objects.  The others are replaced
    by the default. *)
Theorem c38_not_default_partial : forall {obj ty W} (R : Rt obj ty W) ctx D eqb n c w x i,
  made (rt_py R) c -> accepts R ctx c (rebuilt eqb c i) -> fields_callable c -> c_frozen c = false ->
  instance_of R ctx c w x i -> has_eq R D eqb -> defaults_in D c -> values_in D c i -> stored_fixed R c i ->
  exists y w' j, copy R ctx (S n) x w = (Ok y, w') /\ fresh_instance R ctx c w w' y j /\ all_kept R w w' /\
    (forall k f v, dget k (c_fields c) = Some f -> dget k (i_dict i) = Some v ->
       (forall d, f_default f = DefVal d -> eqb d v = false) -> dget k (i_dict j) = Some v) /\
    (forall k f v d, dget k (c_fields c) = Some f -> dget k (i_dict i) = Some v ->
       f_default f = DefVal d -> eqb d v = true -> dget k (i_dict j) = Some d).
Proof. exact (@c38_not_default_partial_proof). Qed.
Print Assumptions c38_not_default_partial.

(** C38 fails for every attribute of a record that is not frozen whose value equals the
    field's default but is another object: the copy has the default in its place. *)
Theorem c38_default_refuted : forall {obj ty W} (R : Rt obj ty W) ctx D eqb n c w x i k f v d,
  made (rt_py R) c -> accepts R ctx c (rebuilt eqb c i) -> fields_callable c -> c_frozen c = false ->
  instance_of R ctx c w x i -> has_eq R D eqb -> defaults_in D c -> values_in D c i -> stored_fixed R c i ->
  dget k (c_fields c) = Some f -> dget k (i_dict i) = Some v -> f_default f = DefVal d -> eqb d v = true -> d <> v ->
  exists y w' j, copy R ctx (S n) x w = (Ok y, w') /\ instance_of R ctx c w' y j /\
    dget k (i_dict j) = Some d /\ dget k (i_dict j) <> dget k (i_dict i).
Proof. exact (@c38_default_refuted_proof). Qed.
Print Assumptions c38_default_refuted.

(** False in a field with default 0 *)
Example c38_default_case :
  exists (c : @cls dobj dty rstate) ctx x w y w',
  made rt0 c /\ fst (construct (demo_rt 0) 1 c None [("x", DBool false)] w0) = Ok x /\
  snd (construct (demo_rt 0) 1 c None [("x", DBool false)] w0) = w /\
  fst (getattr (demo_rt 0) x "x" w) = Ok (DBool false) /\
  copy (demo_rt 0) ctx 1 x w = (Ok y, w') /\ fst (getattr (demo_rt 0) y "x" w') = Ok (DInt 0).
Proof.
  exists (made_of copy_decl), copy_ctx, (DRef (TRec 0) 0). eexists. exists (DRef (TRec 0) 1). eexists.
  split; [|repeat split; reflexivity].
  apply (made_class _ copy_decl); [reflexivity|repeat constructor; simpl; tauto|]. intros b [H|[]]. discriminate.
Qed.

(** C55: copy.copy of a record that is not frozen is a new record of the same class, equal
    to it; no existing record changes. *)
Theorem c55_copy : forall {obj ty W} (R : Rt obj ty W) ctx D eqb hf n c w x i,
  made (rt_py R) c -> accepts R ctx c (fieldwise eqb c i) -> fields_callable c -> c_frozen c = false ->
  instance_of R ctx c w x i -> comparable R D eqb hf c i -> restores R D eqb hf c i (i_dict i) ->
  exists y w', copy R ctx (S n) x w = (Ok y, w') /\ equal_copy R ctx c w w' x y.
Proof. exact (@c55_copy_proof). Qed.
Print Assumptions c55_copy.

(** C55: copy.copy of a frozen record is the record itself, and nothing changes. *)
Theorem c55_frozen : forall {obj ty W} (R : Rt obj ty W) ctx n c w x i,
  instance_of R ctx c w x i -> c_frozen c = true -> copy R ctx n x w = (Ok x, w).
Proof. exact (@c55_frozen_proof). Qed.
Print Assumptions c55_frozen.

(** C76: copy.deepcopy of a record, frozen or not, is a new record of the same class; it is
    equal to it if deep copies of field values are turned back into equal values. *)
Theorem c76_deepcopy : forall {obj ty W} (R : Rt obj ty W) ctx D eqb hf n c w x i,
  made (rt_py R) c -> accepts R ctx c (fieldwise eqb c i) -> fields_callable c ->
  instance_of R ctx c w x i -> comparable R D eqb hf c i ->
  exists d, to_dict R ctx x no_args sel_empty w = (Ok d, w) /\
    forall vs w1, deep_copy R (dvalues d) w = (Ok vs, w1) -> all_kept R w w1 -> List.length vs = List.length d ->
    restores R D eqb hf c i (combine (keys d) vs) ->
    exists y w', deepcopy R ctx (S n) x w = (Ok y, w') /\ equal_copy R ctx c w1 w' x y.
Proof. exact (@c76_deepcopy_proof). Qed.
Print Assumptions c76_deepcopy.

(** C77 fails for every field whose value equals its default: deepcopy leaves such fields out,
    so that the copy has the default object of the class in it, whatever copy.deepcopy makes of
    other objects.  If the field was never set, that is the object the original has too. *)
Theorem c77_default_shared_refuted : forall {obj ty W} (R : Rt obj ty W) ctx D eqb n c w x i d vs w1 k f v d0,
  made (rt_py R) c -> accepts R ctx c (fun j => forall k u, dget k (combine (keys d) vs) = Some u -> dget k (i_dict j) = Some u) -> fields_callable c ->
  instance_of R ctx c w x i -> has_eq R D eqb -> defaults_in D c -> values_in D c i ->
  to_dict R ctx x no_args sel_empty w = (Ok d, w) -> deep_copy R (dvalues d) w = (Ok vs, w1) -> List.length vs = List.length d ->
  (forall k f u w, dget k (c_fields c) = Some f -> dget k (combine (keys d) vs) = Some u -> call (rt_py R) (f_filler f) u w = (Ok u, w)) ->
  dget k (c_fields c) = Some f -> dget k (i_dict i) = Some v -> f_default f = DefVal d0 -> eqb d0 v = true ->
  exists y w' j, deepcopy R ctx (S n) x w = (Ok y, w') /\ fresh_instance R ctx c w1 w' y j /\
    dget k (i_dict j) = Some d0 /\ (v = d0 -> dget k (i_dict j) = dget k (i_dict i)).
Proof. exact (@c77_default_shared_refuted_proof). Qed.
Print Assumptions c77_default_shared_refuted.

(** a list as default *)
Example c77_default_shared_case :
  exists (c : @cls dobj dty rstate) ctx x w, made rt0 c /\ construct (demo_rt 0) 1 c None [] w0 = (Ok x, w) /\
  exists y w' l, fst (getattr (demo_rt 0) x "x" w) = Ok l /\ type_of rt0 l = TList /\
    to_dict (demo_rt 0) ctx x no_args sel_empty w = (Ok [], w) /\
    deepcopy (demo_rt 0) ctx 1 x w = (Ok y, w') /\ y <> x /\ fst (getattr (demo_rt 0) y "x" w') = Ok l.
Proof.
  exists (made_of deep_decl), deep_ctx, (DRef (TRec 0) 0). eexists. split; [|split; [reflexivity|]].
  - apply (made_class _ deep_decl); [reflexivity|repeat constructor; simpl; tauto|]. intros b [H|[]]. discriminate.
  - exists (DRef (TRec 0) 1). eexists. exists (dlist []). repeat split; try reflexivity. discriminate.
Qed.

(** C77 holds for the fields that are not equal to a default: in the deep copy they have
    what the filler makes of the object that copy.deepcopy returned. *)
Theorem c77_not_default_partial : forall {obj ty W} (R : Rt obj ty W) ctx D eqb n c w x i d vs w1,
  made (rt_py R) c -> accepts R ctx c (fun j => forall k u, dget k (combine (keys d) vs) = Some u -> dget k (i_dict j) = Some u) -> fields_callable c ->
  instance_of R ctx c w x i -> has_eq R D eqb -> defaults_in D c -> values_in D c i ->
  to_dict R ctx x no_args sel_empty w = (Ok d, w) -> deep_copy R (dvalues d) w = (Ok vs, w1) -> List.length vs = List.length d ->
  (forall k f u w, dget k (c_fields c) = Some f -> dget k (combine (keys d) vs) = Some u -> call (rt_py R) (f_filler f) u w = (Ok u, w)) ->
  exists y w' j, deepcopy R ctx (S n) x w = (Ok y, w') /\ fresh_instance R ctx c w1 w' y j /\ all_kept R w1 w' /\
    forall k f v, dget k (c_fields c) = Some f -> dget k (i_dict i) = Some v ->
      (forall d, f_default f = DefVal d -> eqb d v = false) ->
      exists u, In u vs /\ dget k (combine (keys d) vs) = Some u /\ dget k (i_dict j) = Some u.
Proof. exact (@c77_not_default_partial_proof). Qed.
Print Assumptions c77_not_default_partial.

(** C40: unpickling a pickled record in the same process gives a new record of the same
    class that has, for each attribute, the copy that pickle made of it; if these copies are
    equal to the originals, so is the record.  The fillers must accept what is exported. *)
Theorem c40_pickle : forall {obj ty W} (R : Rt obj ty W) ctx D eqb hf n c w x i vs w1,
  made (rt_py R) c -> accepts R ctx c (refilled R c (combine (keys (i_dict i)) vs)) -> fields_callable c ->
  instance_of R ctx c w x i -> comparable R D eqb hf c i -> dict_ok (i_dict i) ->
  pickle_values R (dvalues (i_dict i)) w = (Ok vs, w1) -> all_kept R w w1 -> List.length vs = List.length (i_dict i) ->
  let copies := combine (keys (i_dict i)) vs in
  (forall k f v u, dget k (c_fields c) = Some f -> dget k (i_dict i) = Some v -> dget k copies = Some u ->
     D u /\ eqb v u = true /\ (c_frozen c = true -> forall w, v_hash R u w = (Ok (hf u), w)) /\
     exists y, forall w, call (rt_py R) (f_filler f) u w = (Ok y, w)) ->
  exists y w' j, pickle_copy R ctx (S n) x w = (Ok y, w') /\ instance_of R ctx c w' y j /\ lookup R w1 y = None /\ all_kept R w1 w' /\
    (forall k, dget k (i_dict j) = dget k copies) /\
    exists w'', record_eq R ctx x y w' = (Ok true, w'') /\ fields_kept R w' w''.
Proof. exact (@c40_pickle_proof). Qed.
Print Assumptions c40_pickle.

(** C41 fails: the pickled state has the cached hash in it.  A record that was hashed in
    one process and unpickled in another, where strings have other hashes, is not equal to a
    record that is constructed there with the same values. *)
Theorem c41_hashed_refuted :
  exists (c : @cls dobj dty rstate) ctx x w z w1 kw d h, made rt0 c /\
  construct (demo_rt 0) 1 c None [("x", DStr "a")] w0 = (Ok x, w) /\
  record_hash (demo_rt 0) ctx x w = (Ok z, w1) /\
  pickle_state (demo_rt 0) ctx x w1 = (Ok (kw, d, h), w1) /\
  exists y w2 p w3, unpickle (demo_rt 1) 1 c kw d h w0 = (Ok y, w2) /\
  construct (demo_rt 1) 1 c None [("x", DStr "a")] w2 = (Ok p, w3) /\
  fst (getattr (demo_rt 1) y "x" w3) = fst (getattr (demo_rt 1) p "x" w3) /\
  fst (record_eq (demo_rt 1) ctx y p w3) = Ok false.
Proof. exact (@c41_hashed_refuted_proof). Qed.
Print Assumptions c41_hashed_refuted.

(** C41 holds for frozen records that were not hashed before they were pickled: unpickled
    from another process, they are equal to a record constructed with the same values.
    R is the process that pickles, R' the one that unpickles; the state w' is of the
    latter.  The values are taken to be the same objects in both. *)
Theorem c41_not_hashed_partial : forall {obj ty W} (R R' : Rt obj ty W) ctx D eqb hf n c w x i kw d h w1 w',
  made (rt_py R) c -> made (rt_py R') c -> accepts R' ctx c (rebuilt eqb c i) -> fields_callable c -> c_frozen c = true ->
  instance_of R ctx c w x i -> has_eq R D eqb -> comparable R' D eqb hf c i -> stored_fixed R' c i ->
  dict_ok (i_dict i) -> (forall k, In k (keys (i_dict i)) -> In k (keys (c_fields c))) -> i_hash i = SNone ->
  pickle_state R ctx x w = (Ok (kw, d, h), w1) ->
  exists y w2 p w3 w4, unpickle R' (S n) c kw d h w' = (Ok y, w2) /\ construct R' (S n) c None d w2 = (Ok p, w3) /\
    record_eq R' ctx y p w3 = (Ok true, w4).
Proof. exact (@c41_not_hashed_partial_proof). Qed.
Print Assumptions c41_not_hashed_partial.

(** a class with the fields x : int and y : int = 0, whose post_new raises a ValueError if x
    is not positive; an instance of it with x = 5 and y = b *)
Definition positive : dobj -> M rstate dobj := fun self w =>
  match lookup (demo_rt 0) w self with
  | Some j => match dget "x" (i_dict j) with
              | Some v => match dint v with
                          | Some z => if (0 <? z)%Z then (Ok DNone, w) else (Raise (mkexc ValueError "x"), w)
                          | None => (Raise (mkexc TypeError "x"), w)
                          end
              | None => (Raise (mkexc AttributeError "x"), w)
              end
  | None => (Raise (mkexc TypeError "self"), w)
  end.
Definition pair_decl (frozen : bool) := rdecl 0 frozen false (Some false) SCheck
  [("x", (an TInt, NoDefault)); ("y", (an TInt, DefVal (DInt 0)))] [] positive.
Definition pair_ctx frozen (t : dty) : option (@cls dobj dty rstate) := match t with TRec 0 => Some (made_of (pair_decl frozen)) | _ => None end.
Definition pair_inst b h : inst dobj dty := Inst (TRec 0) [("x", DInt 5); ("y", DInt b)] h.
Definition pair_state b h := RState [] [pair_inst b h] [].
Definition int_values (x : dobj) : Prop := exists z, x = DInt z.
Definition int_hash (x : dobj) : Z := match x with DInt z => z | _ => 0%Z end.
Lemma pair_made : forall fz, made rt0 (made_of (pair_decl fz)).
Proof. intros fz. apply (made_class _ (pair_decl fz)); [destruct fz; reflexivity|repeat constructor; simpl; intuition discriminate|]. intros b [H|[]]. discriminate. Qed.
Lemma pair_positive : forall fz (like : inst dobj dty -> Prop),
  (forall j v, like j -> dget "x" (i_dict j) = Some v -> exists v', dget "x" (i_dict j) = Some v' /\ dint v' = Some 5%Z) ->
  accepts (demo_rt 0) (pair_ctx fz) (made_of (pair_decl fz)) like.
Proof.
  intros fz like H self w j (_ & HL & _ & _ & HF) HJ. destruct (HF "x") as [v EV]; [destruct fz; left; reflexivity|].
  destruct (H j v HJ EV) as (v' & EV' & ED). unfold post_new_result, bind.
  replace (c_post_new (made_of (pair_decl fz)) self w) with (positive self w) by (destruct fz; reflexivity).
  unfold positive. rewrite HL, EV', ED. reflexivity.
Qed.
Lemma pair_post : forall fz b, accepts (demo_rt 0) (pair_ctx fz) (made_of (pair_decl fz)) (fieldwise dlit_eq (made_of (pair_decl fz)) (pair_inst b SNone)).
Proof.
  intros fz b. apply pair_positive. intros j v H E. exists v. split; [assumption|].
  assert (K : In "x" (keys (c_fields (made_of (pair_decl fz))))) by (destruct fz; left; reflexivity).
  specialize (H "x" (DInt 5) v K eq_refl E). unfold dlit_eq in H. cbn [dint] in H. destruct (dint v) as [z|] eqn:EI.
  - apply Z.eqb_eq in H. congruence.
  - destruct v; cbn in EI, H; discriminate.
Qed.
Lemma pair_post_rebuilt : forall fz b, accepts (demo_rt 0) (pair_ctx fz) (made_of (pair_decl fz)) (rebuilt dlit_eq (made_of (pair_decl fz)) (pair_inst b SNone)).
Proof.
  intros fz b. apply pair_positive. intros j v H E. exists (DInt 5). split; [|reflexivity].
  destruct fz; (destruct (H "x" _ (DInt 5) eq_refl eq_refl) as [G|(d & G & _)]; [assumption|discriminate]).
Qed.
Lemma pair_post_refilled : forall fz b, accepts (demo_rt 0) (pair_ctx fz) (made_of (pair_decl fz))
  (refilled (demo_rt 0) (made_of (pair_decl fz)) [("x", DInt 5); ("y", DInt b)]).
Proof.
  intros fz b. apply pair_positive. intros j v H E. exists (DInt 5). split; [|reflexivity].
  destruct fz; (destruct (H "x" _ (DInt 5) eq_refl eq_refl) as [(y & G & C)|(d & G & _)]; [|discriminate]);
  specialize (C w0); cbn in C; injection C as <-; assumption.
Qed.
(** -5 is not accepted *)
Example pair_negative : forall fz, exists e, fst (construct (demo_rt 0) 1 (made_of (pair_decl fz)) None [("x", DInt (-5))] w0) = Raise e /\ exc_cls e = ValueError.
Proof. intros [|]; eexists; split; reflexivity. Qed.
Lemma pair_callable : forall fz, fields_callable (made_of (pair_decl fz)).
Proof. intros [|] k [<-|[<-|[]]] H; unfold reserved in H; destruct H as [H|[H|H]]; discriminate. Qed.
Lemma pair_instance : forall fz b h, instance_of (demo_rt 0) (pair_ctx fz) (made_of (pair_decl fz)) (pair_state b h) (DRef (TRec 0) 0) (pair_inst b h).
Proof. intros [|] b h; (repeat split; try reflexivity); intros k [<-|[<-|[]]]; eexists; reflexivity. Qed.
Lemma pair_fields : forall fz k f, dget k (c_fields (made_of (pair_decl fz))) = Some f ->
  (k = "x" /\ f_default f = NoDefault) \/ (k = "y" /\ f_default f = DefVal (DInt 0)).
Proof.
  intros fz k f E. destruct fz; cbn in E; (destruct (String.eqb_spec k "x"); [injection E as <-; left; auto|]);
  (destruct (String.eqb_spec k "y"); [injection E as <-; right; auto|discriminate]).
Qed.
Lemma pair_values : forall k b h v, dget k (i_dict (pair_inst b h)) = Some v -> (k = "x" /\ v = DInt 5) \/ (k = "y" /\ v = DInt b).
Proof.
  intros k b h v E. cbn in E. destruct (String.eqb_spec k "x"); [injection E as <-; left; auto|].
  destruct (String.eqb_spec k "y"); [injection E as <-; right; auto|discriminate].
Qed.
Lemma pair_accepts : forall fz k f z w, dget k (c_fields (made_of (pair_decl fz))) = Some f -> call rt0 (f_filler f) (DInt z) w = (Ok (DInt z), w).
Proof.
  intros fz k f z w E. destruct fz; cbn in E; (destruct (String.eqb k "x"); [injection E as <-; reflexivity|]);
  (destruct (String.eqb k "y"); [injection E as <-; reflexivity|discriminate]).
Qed.
Lemma pair_comparable : forall fz b, comparable (demo_rt 0) int_values dlit_eq int_hash (made_of (pair_decl fz)) (pair_inst b SNone).
Proof.
  intros fz b. assert (EQV : equivalence int_values dlit_eq).
  { split; [|split].
    - intros a [z ->]. cbn. apply Z.eqb_refl.
    - intros a c [z ->] [z' ->]. cbn. intro H. rewrite Z.eqb_sym. assumption.
    - intros a c d [z ->] [z' ->] [z'' ->]. cbn. intros H1 H2. apply Z.eqb_eq in H1, H2. apply Z.eqb_eq. congruence. }
  split; [intros x y w _ _; split; reflexivity|]. split; [assumption|]. split; [|split].
  - intros k f d E ED. destruct (pair_fields fz k f E) as [[_ H]|[_ H]]; rewrite H in ED; [discriminate|]. injection ED as <-. eexists. reflexivity.
  - intros k v _ E. destruct (pair_values k b SNone v E) as [[_ ->]|[_ ->]]; eexists; reflexivity.
  - intros _. split; [intros a c [z ->] [z' ->]; cbn; apply Z.eqb_eq|]. split; [|split; [left; reflexivity|]].
    + intros k v _ E w. destruct (pair_values k b SNone v E) as [[_ ->]|[_ ->]]; reflexivity.
    + intros k f d w E ED. destruct (pair_fields fz k f E) as [[_ H]|[_ H]]; rewrite H in ED; [discriminate|]. injection ED as <-. reflexivity.
Qed.
Lemma pair_fixed : forall fz b, stored_fixed (demo_rt 0) (made_of (pair_decl fz)) (pair_inst b SNone).
Proof.
  intros fz b k f v EF EV w. destruct (pair_values k b SNone v EV) as [[_ ->]|[_ ->]]; eapply pair_accepts; eassumption.
Qed.
Lemma pair_restores : forall fz b d, (forall k v, dget k d = Some v -> dget k (i_dict (pair_inst b SNone)) = Some v) ->
  restores (demo_rt 0) int_values dlit_eq int_hash (made_of (pair_decl fz)) (pair_inst b SNone) d.
Proof.
  intros fz b d HS k f u v EF EU EV. rewrite (HS k u EU) in EV. injection EV as ->.
  assert (IV : exists z, v = DInt z) by (destruct (pair_values k b SNone v (HS k v EU)) as [[_ ->]|[_ ->]]; eexists; reflexivity).
  destruct IV as [z ->]. exists (DInt z). split; [intro w; eapply pair_accepts; eassumption|]. split; [eexists; reflexivity|]. split; [cbn; apply Z.eqb_refl|]. reflexivity.
Qed.
(** the mapping that is exported from (5, 0) has x only, the one from (5, 1) has both *)
Example c36_case : forall fz b, exists d, to_dict (demo_rt 0) (pair_ctx fz) (DRef (TRec 0) 0) no_args sel_empty (pair_state b SNone) = (Ok d, pair_state b SNone) /\
  forall m, is_mapping (demo_rt 0) m d -> exists y w', from_mapping (demo_rt 0) 1 (made_of (pair_decl fz)) sel_empty [m] [] (pair_state b SNone) = (Ok y, w') /\
    equal_copy (demo_rt 0) (pair_ctx fz) (made_of (pair_decl fz)) (pair_state b SNone) w' (DRef (TRec 0) 0) y.
Proof.
  intros fz b. exact (c36_mapping (demo_rt 0) _ _ _ _ 0 _ _ _ _ (pair_made fz) (pair_post fz b) (pair_callable fz) (pair_instance fz b SNone) (pair_comparable fz b) (pair_fixed fz b)).
Qed.
Example c36_items : is_mapping (demo_rt 0) (mapping [("x", DInt 5)]) [("x", DInt 5)] /\
  to_dict (demo_rt 0) (pair_ctx true) (DRef (TRec 0) 0) no_args sel_empty (pair_state 0 SNone) = (Ok [("x", DInt 5)], pair_state 0 SNone).
Proof.
  split; [|reflexivity]. split; [repeat constructor; simpl; tauto|]. split; [reflexivity|].
  intros k w1. cbn. destruct (String.eqb k "x"); reflexivity.
Qed.
Example c39_case : forall fz, exists t y w',
  to_json (demo_rt 0) (pair_ctx fz) (DRef (TRec 0) 0) no_args sel_empty (pair_state 1 SNone) = (Ok t, pair_state 1 SNone) /\
  from_json (demo_rt 0) 1 (made_of (pair_decl fz)) sel_empty t (pair_state 1 SNone) = (Ok y, w') /\
  equal_copy (demo_rt 0) (pair_ctx fz) (made_of (pair_decl fz)) (pair_state 1 SNone) w' (DRef (TRec 0) 0) y.
Proof.
  intro fz. destruct (c39_json (demo_rt 0) _ _ _ _ 0 _ _ _ _ (pair_made fz) (pair_post fz 1%Z) (pair_callable fz) (pair_instance fz 1%Z SNone) (pair_comparable fz 1%Z)) as (d & TD & H).
  assert (ED : d = [("x", DInt 5); ("y", DInt 1)]) by (destruct fz; cbn in TD; injection TD as <-; reflexivity). subst d.
  destruct (H (DTuple (DCons (mapping [("x", DInt 5); ("y", DInt 1)]) DNil)) (pair_state 1 SNone) (mapping [("x", DInt 5); ("y", DInt 1)]) (pair_state 1 SNone) [("x", DInt 5); ("y", DInt 1)] (pair_state 1 SNone)) as (H1 & y & w' & H2 & H3);
    try reflexivity; [intros ? ? E; exact E|apply pair_restores; intros k v E; exact E|].
  exists (DTuple (DCons (mapping [("x", DInt 5); ("y", DInt 1)]) DNil)), y, w'. auto.
Qed.
Example c55_case : exists y w', copy (demo_rt 0) (pair_ctx false) 1 (DRef (TRec 0) 0) (pair_state 1 SNone) = (Ok y, w') /\
  equal_copy (demo_rt 0) (pair_ctx false) (made_of (pair_decl false)) (pair_state 1 SNone) w' (DRef (TRec 0) 0) y.
Proof.
  apply (c55_copy (demo_rt 0) _ int_values dlit_eq int_hash 0 _ _ _ (pair_inst 1 SNone)); [apply pair_made|apply pair_post|apply pair_callable|reflexivity|apply pair_instance|apply pair_comparable|].
  apply pair_restores. intros k v E; exact E.
Qed.
Example c38_case : exists y w' j, copy (demo_rt 0) (pair_ctx false) 1 (DRef (TRec 0) 0) (pair_state 1 SNone) = (Ok y, w') /\
  fresh_instance (demo_rt 0) (pair_ctx false) (made_of (pair_decl false)) (pair_state 1 SNone) w' y j /\ dget "y" (i_dict j) = Some (DInt 1).
Proof.
  destruct (c38_not_default_partial (demo_rt 0) (pair_ctx false) int_values dlit_eq 0 (made_of (pair_decl false)) (pair_state 1 SNone) (DRef (TRec 0) 0) (pair_inst 1 SNone))
    as (y & w' & j & H1 & H2 & _ & H3 & _); [apply pair_made|apply pair_post_rebuilt|apply pair_callable|reflexivity|apply pair_instance|apply (pair_comparable false 1%Z)|apply (pair_comparable false 1%Z)|apply (pair_comparable false 1%Z)|apply pair_fixed|].
  exists y, w', j. split; [assumption|]. split; [assumption|]. eapply H3; [reflexivity|reflexivity|]. intros d E. cbn in E. injection E as <-. reflexivity.
Qed.
Example c76_case : forall fz, exists y w', deepcopy (demo_rt 0) (pair_ctx fz) 1 (DRef (TRec 0) 0) (pair_state 1 SNone) = (Ok y, w') /\
  equal_copy (demo_rt 0) (pair_ctx fz) (made_of (pair_decl fz)) (pair_state 1 SNone) w' (DRef (TRec 0) 0) y.
Proof.
  intro fz. destruct (c76_deepcopy (demo_rt 0) _ _ _ _ 0 _ _ _ _ (pair_made fz) (pair_post fz 1%Z) (pair_callable fz) (pair_instance fz 1%Z SNone) (pair_comparable fz 1%Z)) as (d & TD & H).
  assert (ED : d = [("x", DInt 5); ("y", DInt 1)]) by (destruct fz; cbn in TD; injection TD as <-; reflexivity). subst d.
  apply (H [DInt 5; DInt 1]); [reflexivity|intros ? ? E; exact E|reflexivity|]. apply pair_restores. intros k v E; exact E.
Qed.
Example c77_case : exists y w' j, deepcopy (demo_rt 0) (pair_ctx true) 1 (DRef (TRec 0) 0) (pair_state 1 SNone) = (Ok y, w') /\
  fresh_instance (demo_rt 0) (pair_ctx true) (made_of (pair_decl true)) (pair_state 1 SNone) w' y j /\ dget "y" (i_dict j) = Some (DInt 1).
Proof.
  destruct (c77_not_default_partial (demo_rt 0) (pair_ctx true) int_values dlit_eq 0 (made_of (pair_decl true)) (pair_state 1 SNone) (DRef (TRec 0) 0) (pair_inst 1 SNone)
     [("x", DInt 5); ("y", DInt 1)] [DInt 5; DInt 1] (pair_state 1 SNone))
    as (y & w' & j & H1 & H2 & _ & H3); [apply pair_made|apply pair_positive; intros j v H _; exists (DInt 5); split; [apply H|]; reflexivity|apply pair_callable|apply pair_instance|apply (pair_comparable true 1%Z)|apply (pair_comparable true 1%Z)|apply (pair_comparable true 1%Z)|reflexivity|reflexivity|reflexivity| |].
  - intros k f u w EF EU. destruct (pair_values k 1 SNone u EU) as [[_ ->]|[_ ->]]; eapply pair_accepts; eassumption.
  - exists y, w', j. split; [assumption|]. split; [assumption|].
    destruct (H3 "y" _ (DInt 1) eq_refl eq_refl) as (u & _ & EU & EJ); [intros d E; cbn in E; injection E as <-; reflexivity|].
    cbn in EU. injection EU as <-. exact EJ.
Qed.
Example c40_case : forall fz, exists y w' j, pickle_copy (demo_rt 0) (pair_ctx fz) 1 (DRef (TRec 0) 0) (pair_state 1 SNone) = (Ok y, w') /\
  instance_of (demo_rt 0) (pair_ctx fz) (made_of (pair_decl fz)) w' y j /\
  exists w'', record_eq (demo_rt 0) (pair_ctx fz) (DRef (TRec 0) 0) y w' = (Ok true, w'').
Proof.
  intro fz. destruct (c40_pickle (demo_rt 0) (pair_ctx fz) int_values dlit_eq int_hash 0 (made_of (pair_decl fz)) (pair_state 1 SNone) (DRef (TRec 0) 0) (pair_inst 1 SNone)
      [DInt 5; DInt 1] (pair_state 1 SNone)) as (y & w' & j & H1 & H2 & _ & _ & _ & w'' & H3 & _);
   [apply pair_made|apply (pair_post_refilled fz 1%Z)|apply pair_callable|apply pair_instance|apply pair_comparable|repeat constructor; simpl; intuition discriminate|reflexivity|intros ? ? E; exact E|reflexivity| |].
  - intros k f v u EF EV EU. change (dget k (i_dict (pair_inst 1 SNone)) = Some u) in EU. rewrite EU in EV. injection EV as ->.
    destruct (pair_values k 1 SNone v EU) as [[_ ->]|[_ ->]]; (split; [eexists; reflexivity|split; [reflexivity|split; [reflexivity|]]]); eexists; intro w; eapply pair_accepts; eassumption.
  - exists y, w', j. split; [assumption|]. split; [assumption|]. exists w''. assumption.
Qed.
Example c41_case : exists y w2 p w3 w4, unpickle (demo_rt 0) 1 (made_of (pair_decl true)) [("x", DInt 5)] [("x", DInt 5); ("y", DInt 0)] SNone w0 = (Ok y, w2) /\
  construct (demo_rt 0) 1 (made_of (pair_decl true)) None [("x", DInt 5); ("y", DInt 0)] w2 = (Ok p, w3) /\
  record_eq (demo_rt 0) (pair_ctx true) y p w3 = (Ok true, w4).
Proof.
  apply (c41_not_hashed_partial (demo_rt 7) (demo_rt 0) (pair_ctx true) int_values dlit_eq int_hash 0 (made_of (pair_decl true)) (pair_state 0 SNone) (DRef (TRec 0) 0) (pair_inst 0 SNone)
     _ _ _ (pair_state 0 SNone)); try reflexivity;
   [apply pair_made|apply pair_made|apply pair_post_rebuilt|apply pair_callable|exact (pair_instance true 0%Z SNone)|intros x y w _ _; split; reflexivity|apply pair_comparable|apply pair_fixed|repeat constructor; simpl; intuition discriminate|].
  intros k H. exact H.
Qed.
