(** Props_Json.v -- property theorems: JSON of records that hold records (records/record.py:431-505, 607-626)
    Each theorem is closed by the lemma of the same statement in Json_main.v; the examples
    show that concrete, non-trivial cases meet the hypotheses. *)

From Verif Require Import Base Py Select Filler Spec_Filler Classes Spec_Classes Runtime Record Spec_Record Spec_Inst Spec_Copy Json Spec_Json Demo DemoRt DemoCls.
From Verif Require Dict_proofs Filler_proofs Classes_proofs Record_proofs Classes_main Filler_main Inst_proofs Inst_main Copy_proofs Copy_main Export_main.
Open Scope string_scope.
Open Scope list_scope.

From Verif Require Import Json_main.

(** C147 (with what the documentation of to_json offers: default): if the fields that hold records are declared with
    from_mapping as a coercer, a record of records and of lists of records is written and
    read back as a new record of the same content *)
Theorem c147_nested_partial : forall {obj ty W} (R : Rt obj ty W) ctx J t_list n c w x i,
  json_contract R ctx J t_list -> readable_class R ctx c -> instance_of R ctx c w x i ->
  (forall k f v, dget k (c_fields c) = Some f -> dget k (i_dict i) = Some v -> json_tree R ctx J t_list w (f_filler f) v) ->
  exists j N, (forall m, N <= m -> to_json_default R ctx J m (Some (with_to_dict R ctx J all_fields)) all_fields x w = (Ok j, w)) /\
  forall t w1, all_kept R w w1 -> json_loads R t w1 = (Ok (of_json J j), w1) ->
  exists y w2, from_json R (S n) c sel_empty t w1 = (Ok y, w2) /\ lookup R w1 y = None /\ all_kept R w1 w2 /\
    same_content R ctx J w w2 x y.
Proof. exact (@c147_nested_partial_proof). Qed.
Print Assumptions c147_nested_partial.

(** C147 fails without [default]: what holds a record cannot be written *)
Theorem c147_default_refuted : forall {obj ty W} (R : Rt obj ty W) ctx J t_list m c w x i k v iv,
  json_contract R ctx J t_list -> made (rt_py R) c -> instance_of R ctx c w x i ->
  In k (keys (c_fields c)) -> dget k (i_dict i) = Some v -> lookup R w v = Some iv ->
  exists e, to_json_default R ctx J m None all_fields x w = (Raise e, w) /\ (exc_cls e = TypeError \/ exc_cls e = RecursionError).
Proof. exact (@c147_default_refuted_proof). Qed.
Print Assumptions c147_default_refuted.

(** C147 fails, even with [default], for a field that is not checked: what is read back holds a dict
    where the record held a record *)
Theorem c147_hollow_refuted : forall {obj ty W} (R : Rt obj ty W) ctx J t_list n c w x i k f b v iv,
  json_contract R ctx J t_list -> readable_class R ctx c -> instance_of R ctx c w x i ->
  dget k (c_fields c) = Some f -> (forall u w', call (rt_py R) (f_filler f) u w' = (Ok u, w')) ->
  dget k (i_dict i) = Some v -> readable_class R ctx b -> instance_of R ctx b w v iv ->
  (forall k' f' v', dget k' (c_fields b) = Some f' -> dget k' (i_dict iv) = Some v' -> json_tree R ctx J t_list w (f_filler f') v') ->
  (forall k' f' v', k' <> k -> dget k' (c_fields c) = Some f' -> dget k' (i_dict i) = Some v' -> json_tree R ctx J t_list w (f_filler f') v') ->
  exists j N, (forall m, N <= m -> to_json_default R ctx J m (Some (with_to_dict R ctx J all_fields)) all_fields x w = (Ok j, w)) /\
  forall t w1, all_kept R w w1 -> json_loads R t w1 = (Ok (of_json J j), w1) ->
  exists y w2 d, from_json R (S n) c sel_empty t w1 = (Ok y, w2) /\ getattr R y k w2 = (Ok (js_object J d), w2) /\
    ~ same_content R ctx J w w2 x y.
Proof. exact (@c147_hollow_refuted_proof). Qed.
Print Assumptions c147_hollow_refuted.

Lemma names_of_strings : forall ks, names_of (map DStr ks) = Some ks.
Proof. induction ks as [|k r IH]; [reflexivity|]. cbn. rewrite IH. reflexivity. Qed.
Lemma nodupb_true : forall ks, NoDup ks -> nodupb ks = true.
Proof.
  induction ks as [|k r IH]; intro H; [reflexivity|]. inversion H as [|? ? N ND]; subst. cbn. rewrite (IH ND), andb_true_r.
  apply negb_true_iff. destruct (smem k r) eqn:E; [|reflexivity]. apply Dict_proofs.smem_In in E. contradiction.
Qed.
Lemma mapping_dict : forall d, dict_ok d -> dict_of (mapping d) = Some d.
Proof.
  intros d H. unfold dict_of, mapping, ddict. rewrite pairs_unpairs. rewrite map_map. cbn [fst].
  rewrite <- (map_map fst DStr), names_of_strings. change (map fst d) with (keys d). rewrite (nodupb_true _ H). f_equal. rewrite map_map. cbn [snd].
  clear H. induction d as [|[k v] r IH]; [reflexivity|]. injection IH as IH. change (keys r) with (map fst r) in IH. cbn. rewrite IH. reflexivity.
Qed.
Lemma demo_contract : json_contract (demo_rt 0) line_ctx demo_json TList.
Proof.
  split.
  - intro l. cbn. rewrite unchain_chain. auto.
  - intros l m w. reflexivity.
  - intros d H. pose proof (mapping_dict d H) as E. split; [|split].
    + change (js_shape demo_json (js_object demo_json d)) with (match dict_of (mapping d) with Some d => Object d | None => @Opaque dobj end). rewrite E. reflexivity.
    + split; [assumption|]. split; [intro w|intros k w]; cbn [demo_rt m_iter m_item js_object demo_json].
      * change ((match dict_of (mapping d) with Some d => ret (keys d) | None => type_error end) w = (Ok (keys d), w)). rewrite E. reflexivity.
      * rewrite E. destruct (dget k d); reflexivity.
    + intro w. cbn [demo_rt unpack js_object demo_json]. rewrite E. reflexivity.
  - intros d t c H. destruct t; try discriminate. split; [discriminate|reflexivity].
  - intros w x i H. unfold lookup in H. cbn [demo_rt deref] in H. destruct x; try discriminate. reflexivity.
  - repeat split; discriminate.
  - split; intros; discriminate.
Qed.
Lemma line_ready : forall c, c = point \/ c = line \/ c = loose_line -> readable_class (demo_rt 0) line_ctx c.
Proof.
  intros c H. split; [|split; [|split]].
  - destruct H as [-> | [-> | ->]]; [apply (made_class _ point_decl)|apply (made_class _ line_decl)|apply (made_class _ loose_decl)];
      first [reflexivity|(intros b [H|[]]; discriminate)|(repeat constructor; simpl; intuition discriminate)].
  - intros k H1 H2. destruct H as [-> | [-> | ->]]; vm_compute in H1; unfold reserved in H2; intuition congruence.
  - intros self w j _ _. destruct H as [-> | [-> | ->]]; reflexivity.
  - destruct H as [-> | [-> | ->]]; repeat split; discriminate.
Qed.
Lemma point_in : forall a b n, n < 2 -> instance_of (demo_rt 0) line_ctx point (line_state a b) (DRef (TRec 0) n) (point_inst (if n then a else b)).
Proof.
  intros a b n H. destruct n as [|[|n]]; [| |lia]; (split; [reflexivity|]; split; [reflexivity|]; split; [reflexivity|]; split; [reflexivity|]);
    intros k HK; (destruct HK as [<-|[]]; eexists; reflexivity).
Qed.
Lemma point_values : forall a b c, (forall k f v, dget k (c_fields point) = Some f -> dget k (i_dict (point_inst c)) = Some v ->
  json_tree (demo_rt 0) line_ctx demo_json TList (line_state a b) (f_filler f) v).
Proof.
  intros a b c k f v EF EV. cbn in EV. destruct (String.eqb_spec k "x") as [->|]; [|discriminate]. injection EV as <-.
  vm_compute in EF. injection EF as <-. apply tree_scalar; [reflexivity|]. intro w'. reflexivity.
Qed.
(** the line is read back, whatever the points are *)
Example c147_line : forall a b,
  exists j N, (forall m, N <= m -> to_json_default (demo_rt 0) line_ctx demo_json m (Some (with_to_dict (demo_rt 0) line_ctx demo_json all_fields)) all_fields (DRef (TRec 1) 2) (line_state a b) = (Ok j, line_state a b)) /\
  forall t w1, all_kept (demo_rt 0) (line_state a b) w1 -> json_loads (demo_rt 0) t w1 = (Ok (of_json demo_json j), w1) ->
  exists y w2, from_json (demo_rt 0) 1 line sel_empty t w1 = (Ok y, w2) /\ lookup (demo_rt 0) w1 y = None /\ all_kept (demo_rt 0) w1 w2 /\
    same_content (demo_rt 0) line_ctx demo_json (line_state a b) w2 (DRef (TRec 1) 2) y.
Proof.
  intros a b. apply (c147_nested_partial (demo_rt 0) line_ctx demo_json TList 0 line (line_state a b) (DRef (TRec 1) 2)
    (Inst (TRec 1) [("p", DRef (TRec 0) 0); ("more", dlist [DRef (TRec 0) 1; DRef (TRec 0) 0]); ("n", DInt 7)] SUnset)).
  - exact demo_contract.
  - apply line_ready. auto.
  - split; [reflexivity|]. split; [reflexivity|]. split; [reflexivity|]. split; [reflexivity|].
    intros k HK. destruct HK as [<-|[<-|[<-|[]]]]; eexists; reflexivity.
  - assert (TP : forall n f, n < 2 -> make_filler rt0 SCheck point_hint [] = Ok f -> json_tree (demo_rt 0) line_ctx demo_json TList (line_state a b) f (DRef (TRec 0) n)).
    { intros n f Hn MF. eapply (tree_record _ _ _ _ _ f SCheck 0 point); [left; reflexivity|apply line_ready; auto|apply point_in; exact Hn|exact MF|apply point_values]. }
    intros k f v EF EV. cbn in EV. destruct (String.eqb_spec k "p") as [->|].
    { injection EV as <-. apply TP; [lia|]. transitivity (match dget "p" (c_fields line) with Some f => Ok (f_filler f) | None => Raise (mkexc TypeError "") end); [reflexivity|rewrite EF; reflexivity]. }
    destruct (String.eqb_spec k "more") as [->|].
    { injection EV as <-. eapply (tree_list _ _ _ _ _ _ SCheck point_hint); [left; reflexivity| | | |reflexivity|reflexivity|].
      - transitivity (match dget "more" (c_fields line) with Some f => Ok (f_filler f) | None => Raise (mkexc TypeError "") end); [reflexivity|rewrite EF; reflexivity].
      - reflexivity.
      - reflexivity.
      - intros v [<-|[<-|[]]]; (apply TP; [lia|reflexivity]). }
    destruct (String.eqb_spec k "n") as [->|]; [|discriminate]. injection EV as <-.
    vm_compute in EF. injection EF as <-. apply tree_scalar; [reflexivity|]. intro w'. reflexivity.
Qed.

(** a field declared as Optional[...] of that annotation may hold a point, and may hold None *)
Example c147_optional : forall a b f, make_filler rt0 SCheck (HUnion [point_hint; HNone]) [] = Ok f ->
  (forall n, n < 2 -> json_tree (demo_rt 0) line_ctx demo_json TList (line_state a b) f (DRef (TRec 0) n)) /\
  json_tree (demo_rt 0) line_ctx demo_json TList (line_state a b) f DNone.
Proof.
  intros a b f MF. assert (MG : exists g, make_filler rt0 SCheck point_hint [] = Ok g) by (eexists; reflexivity).
  destruct MG as [g MG]. split.
  - intros n Hn. eapply (tree_optional _ _ _ _ _ f SCheck point_hint g); [left; reflexivity|exact MF|exact MG|discriminate|].
    eapply (tree_record _ _ _ _ _ g SCheck 0 point); [left; reflexivity|apply line_ready; auto|apply point_in; exact Hn|exact MG|apply point_values].
  - change DNone with (o_none (rt_py (demo_rt 0))). eapply (tree_none (demo_rt 0) line_ctx demo_json TList (line_state a b) f SCheck point_hint g); [left; reflexivity|exact MF|exact MG|reflexivity|].
    intro w'. injection MG as <-. eexists. split; reflexivity.
Qed.

(** without [default], and with an unchecked field *)
Example c147_cases : forall a b m,
  (exists e, to_json_default (demo_rt 0) line_ctx demo_json m None all_fields (DRef (TRec 1) 2) (line_state a b) = (Raise e, line_state a b)) /\
  exists j N, (forall m, N <= m -> to_json_default (demo_rt 0) line_ctx demo_json m (Some (with_to_dict (demo_rt 0) line_ctx demo_json all_fields)) all_fields (DRef (TRec 2) 3) (line_state a b) = (Ok j, line_state a b)) /\
  forall t w1, all_kept (demo_rt 0) (line_state a b) w1 -> json_loads (demo_rt 0) t w1 = (Ok (of_json demo_json j), w1) ->
  exists y w2 d, from_json (demo_rt 0) 1 loose_line sel_empty t w1 = (Ok y, w2) /\ getattr (demo_rt 0) y "q" w2 = (Ok (mapping d), w2) /\
    ~ same_content (demo_rt 0) line_ctx demo_json (line_state a b) w2 (DRef (TRec 2) 3) y.
Proof.
  intros a b m. split.
  - destruct (c147_default_refuted (demo_rt 0) line_ctx demo_json TList m line (line_state a b) (DRef (TRec 1) 2)
      (Inst (TRec 1) [("p", DRef (TRec 0) 0); ("more", dlist [DRef (TRec 0) 1; DRef (TRec 0) 0]); ("n", DInt 7)] SUnset) "p" (DRef (TRec 0) 0) (point_inst a)) as (e & E & _);
      [exact demo_contract|apply line_ready; auto| |left; reflexivity|reflexivity|reflexivity|exists e; exact E].
    split; [reflexivity|]. split; [reflexivity|]. split; [reflexivity|]. split; [reflexivity|].
    intros k HK. destruct HK as [<-|[<-|[<-|[]]]]; eexists; reflexivity.
  - assert (EF : exists f, dget "q" (c_fields loose_line) = Some f /\ forall u w', call rt0 (f_filler f) u w' = (Ok u, w')).
    { eexists. split; [vm_compute; reflexivity|]. intros u w'. reflexivity. }
    destruct EF as (f & EF & HF).
    apply (c147_hollow_refuted (demo_rt 0) line_ctx demo_json TList 0 loose_line (line_state a b) (DRef (TRec 2) 3)
      (Inst (TRec 2) [("q", DRef (TRec 0) 1)] SUnset) "q" f point (DRef (TRec 0) 1) (point_inst b)).
    + exact demo_contract.
    + apply line_ready. auto.
    + split; [reflexivity|]. split; [reflexivity|]. split; [reflexivity|]. split; [reflexivity|].
      intros k HK. destruct HK as [<-|[]]; eexists; reflexivity.
    + exact EF.
    + exact HF.
    + reflexivity.
    + apply line_ready. auto.
    + apply (point_in a b 1). lia.
    + apply point_values.
    + intros k' f' v' NE _ EV. cbn in EV. destruct (String.eqb_spec k' "q"); [contradiction|discriminate].
Qed.
