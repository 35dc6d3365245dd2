(** Props_Through.v -- property theorems: Exporting through the class (records/select.py:258-369)
    Each theorem is closed by the lemma of the same statement in Through_main.v; the examples
    show that concrete, non-trivial cases meet the hypotheses. *)

From Verif Require Import Base Py Select Filler Classes Spec_Classes Runtime Record Spec_Record Spec_Inst Spec_Copy Through Spec_Through Demo DemoRt DemoCls.
From Verif Require Dict_proofs Filler_proofs Classes_proofs Record_proofs Classes_main Inst_proofs Inst_main Copy_proofs From_main.
Open Scope string_scope.
Open Scope list_scope.

From Verif Require Import Through_main.

(** Calling an exporter on the class, with a record of that class as first argument, does what
    calling it on the record does, whatever was selected and whatever arguments are passed, unless
    one of them is a keyword called instance. *)
Theorem c142_same : forall {obj ty W X} (R : Rt obj ty W) ctx parse_args (e : exporter obj W X) l args kw c x w,
  class_of R ctx x w = Some c -> ~ In "instance" (keys kw) ->
  on_class R parse_args e c l (x :: args) kw w = on_record R ctx parse_args e x l args kw w.
Proof. exact (@c142_same_proof). Qed.
Print Assumptions c142_same.

(** What that is: _to_dict of the class on the object, with what has been given to export_with;
    all the selects on its result; the exporter's function on that, with the arguments of the call.
    For exporters without arguments (to_dict) the arguments of the call also go to _to_dict. *)
Theorem c142_meaning : forall {obj ty W X} (R : Rt obj ty W) parse_args (e : exporter obj W X) l args kw c v w s a d w1,
  ~ In "instance" (keys kw) -> ~ In "self" (keys kw) -> given_select sel_empty l = Ok s ->
  parse_args (if ex_noarg e then given_args l ++ args else given_args l)
             (if ex_noarg e then dupdate (given_keywords l) kw else given_keywords l) = Ok a ->
  class_export R c v a sel_empty ret w = (Ok d, w1) ->
  on_class R parse_args e c l (v :: args) kw w =
  match sel_apply s d with
  | Ok d' => if ex_noarg e then ex_func e d' [] [] w1 else ex_func e d' args kw w1
  | Raise er => (Raise er, w1)
  end.
Proof. exact (@c142_meaning_proof). Qed.
Print Assumptions c142_meaning.

(** Errors on the way: options that _to_dict does not take, errors of _to_dict, and selects that can
    not be merged. *)
Theorem c142_errors : forall {obj ty W X} (R : Rt obj ty W) parse_args (e : exporter obj W X) l args kw c v w,
  ~ In "instance" (keys kw) -> ~ In "self" (keys kw) ->
  (forall er, given_select sel_empty l = Raise er -> on_class R parse_args e c l (v :: args) kw w = (Raise er, w)) /\
  (forall s er, given_select sel_empty l = Ok s ->
     parse_args (if ex_noarg e then given_args l ++ args else given_args l)
                (if ex_noarg e then dupdate (given_keywords l) kw else given_keywords l) = Raise er ->
     on_class R parse_args e c l (v :: args) kw w = (Raise er, w)) /\
  (forall s a er w1, given_select sel_empty l = Ok s ->
     parse_args (if ex_noarg e then given_args l ++ args else given_args l)
                (if ex_noarg e then dupdate (given_keywords l) kw else given_keywords l) = Ok a ->
     class_export R c v a sel_empty ret w = (Raise er, w1) ->
     on_class R parse_args e c l (v :: args) kw w = (Raise er, w1)).
Proof. exact (@c142_errors_proof). Qed.
Print Assumptions c142_errors.

(** The object must be passed exactly once. *)
Theorem c142_once : forall {obj ty W X} (R : Rt obj ty W) parse_args (e : exporter obj W X) l args kw c w s,
  given_select sel_empty l = Ok s ->
  (args = [] <-> ~ In "instance" (keys kw)) ->
  exists m, on_class R parse_args e c l args kw w = (Raise (mkexc TypeError m), w).
Proof. exact (@c142_once_proof). Qed.
Print Assumptions c142_once.

(** The record can also be passed as the keyword argument instance. *)
Theorem c142_keyword : forall {obj ty W X} (R : Rt obj ty W) ctx parse_args (e : exporter obj W X) l kw c x w,
  class_of R ctx x w = Some c -> ~ In "instance" (keys kw) ->
  on_class R parse_args e c l [] (("instance", x) :: kw) w = on_record R ctx parse_args e x l [] kw w.
Proof. exact (@c142_keyword_proof). Qed.
Print Assumptions c142_keyword.

(** A class exports of any object its own fields, in field order: the attributes that are to be
    exported, and with include_defaults also the defaults of the missing ones.  Nothing else about
    the object, or its class, matters. *)
Theorem c142_object : forall {obj ty W} (R : Rt obj ty W) D eqb c v d a black w,
  made (rt_py R) c -> has_eq R D eqb -> defaults_in D c ->
  has_attributes R w (fun k => In k (keys (c_fields c))) v d ->
  (forall k x, In k (keys (c_fields c)) -> dget k d = Some x -> D x) -> e_black a = BlackSet black ->
  (e_defaults a = true -> forall k f g, dget k (c_fields c) = Some f -> f_default f = DefFactory g -> dget k d <> None) ->
  (forall k f, dget k (c_fields c) = Some f -> f_default f = NoDefault -> wanted a black k f -> dget k d <> None) ->
  exists out, class_export R c v a sel_empty ret w = (Ok out, w) /\ dict_ok out /\
  (forall k x, dget k out = Some x <-> exists f, dget k (c_fields c) = Some f /\
     (dget k d = Some x /\ to_export eqb a black k f x \/
      dget k d = None /\ e_defaults a = true /\ wanted a black k f /\ f_default f = DefVal x)) /\
  (e_sort a = SortNone -> keys out = filter (fun k => dmem k out) (keys (c_fields c))) /\
  (forall le, order_of (e_sort a) = Some le -> total_preorder le -> sorted_by le out).
Proof. exact (@c142_object_proof). Qed.
Print Assumptions c142_object.

(** If the object lacks a field that has no default and is not blacklisted, AttributeError. *)
Theorem c142_missing : forall {obj ty W X} (R : Rt obj ty W) D eqb c v d a black w k f s (func : dict obj -> M W X),
  made (rt_py R) c -> has_eq R D eqb -> defaults_in D c ->
  has_attributes R w (fun k => In k (keys (c_fields c))) v d ->
  (forall k x, In k (keys (c_fields c)) -> dget k d = Some x -> D x) -> e_black a = BlackSet black ->
  (e_defaults a = true -> forall k f g, dget k (c_fields c) = Some f -> f_default f = DefFactory g -> dget k d <> None) ->
  dget k (c_fields c) = Some f -> f_default f = NoDefault -> wanted a black k f -> dget k d = None ->
  exists m, class_export R c v a s func w = (Raise (mkexc AttributeError m), w).
Proof. exact (@c142_missing_proof). Qed.
Print Assumptions c142_missing.

(** What a class exports of a record of a class that descends from it is what the record exports,
    restricted to the fields of the class. *)
Theorem c142_ancestor : forall {obj ty W} (R : Rt obj ty W) ctx D eqb A c x i a black w,
  descends (rt_py R) c A -> has_eq R D eqb -> defaults_in D c -> instance_of R ctx c w x i -> values_in D c i ->
  e_black a = BlackSet black -> (forall le, order_of (e_sort a) = Some le -> total_preorder le) ->
  exists all, to_dict R ctx x a sel_empty w = (Ok all, w) /\
  class_export R A x a sel_empty ret w = (Ok (filter (fun kv => dmem (fst kv) (c_fields A)) all), w).
Proof. exact (@c142_ancestor_proof). Qed.
Print Assumptions c142_ancestor.

(** from_instance of any object is from_mapping of what the class exports of it, unless
    the object is itself returned (a frozen class, and an instance of it). *)
Theorem c142_from_instance : forall {obj ty W} (R : Rt obj ty W) n c v w,
  isinstance (rt_py R) v (c_ty c) && c_frozen c = false ->
  (forall d w1 m, class_export R c v no_args sel_empty ret w = (Ok d, w1) -> is_mapping R m d ->
     from_instance R n c sel_empty v [] [] w = from_mapping R n c sel_empty [m] [] w1) /\
  (forall e w1, class_export R c v no_args sel_empty (fun d : dict obj => ret d) w = (Raise e, w1) ->
     from_instance R n c sel_empty v [] [] w = (Raise e, w1)).
Proof. exact (@c142_from_instance_proof). Qed.
Print Assumptions c142_from_instance.

Lemma thr_base_made : made rt0 thr_base.
Proof.
  apply (made_class _ (rdecl 0 false false (Some false) SCheck [("x", (an TInt, DefVal (DInt 0))); ("y", (an TInt, NoDefault))] [] no_post));
    [reflexivity|repeat constructor; simpl; intuition discriminate|]. intros b [H|[]]. discriminate.
Qed.
Lemma thr_sub_made : made rt0 thr_sub.
Proof.
  apply (made_class _ thr_decl); [reflexivity|repeat constructor; simpl; intuition discriminate|]. intros b [H|[]]. injection H as <-. exact thr_base_made.
Qed.
(** select and export_with before, arguments for the function after *)
Example c142_same_case :
  let s := sel_init (PIter (Reiter [])) (PIter (Reiter [])) (NIter (Reiter ["y"])) (NIter (Reiter [])) (PIter (Reiter [("z", "zz")])) (PIter (Reiter [])) in
  class_of (demo_rt 0) thr_ctx (DRef (TRec 1) 0) thr_state = Some thr_sub /\
  on_class (demo_rt 0) thr_args thr_dump thr_sub [Selecting [s] None; ExportWith [] [("sort", DInt 1)]] [DRef (TRec 1) 0; DInt 5] [] thr_state =
  (Ok ([("x", DInt 3); ("zz", DInt 2)], 1), thr_state).
Proof. split; reflexivity. Qed.
(** an object that is no record, and lacks x *)
Example c142_object_case : exists out,
  class_export (demo_rt 0) thr_base (DRef (TRec 5) 1) (ExportArgs true SortNone (BlackSet []) []) sel_empty ret thr_state = (Ok out, thr_state) /\
  keys out = ["x"; "y"] /\ dget "x" out = Some (DInt 0) /\ dget "y" out = Some (DInt 9).
Proof.
  destruct (c142_object (demo_rt 0) (fun _ => True) dlit_eq thr_base (DRef (TRec 5) 1) [("y", DInt 9); ("q", DInt 8)]
              (ExportArgs true SortNone (BlackSet []) []) [] thr_state) as (out & E & OK & HG & HK & _).
  - exact thr_base_made.
  - intros x y w _ _. split; reflexivity.
  - intros k f d _ _. exact I.
  - intros k _. cbn. destruct (String.eqb k "y"); [reflexivity|]. destruct (String.eqb k "q"); [reflexivity|]. eexists. reflexivity.
  - auto.
  - reflexivity.
  - intros _ k f g E. cbn in E. destruct (String.eqb_spec k "x") as [->|N1]; [injection E as <-; discriminate|].
    destruct (String.eqb_spec k "y") as [->|N2]; [injection E as <-; discriminate|discriminate].
  - intros k f E. cbn in E. destruct (String.eqb_spec k "x") as [->|N1]; [injection E as <-; discriminate|].
    destruct (String.eqb_spec k "y") as [->|N2]; [discriminate|discriminate].
  - exists out. split; [exact E|].
    assert (X : dget "x" out = Some (DInt 0)) by (apply HG; eexists; split; [reflexivity|]; right; repeat split; right; intros t []).
    assert (Y : dget "y" out = Some (DInt 9)) by (apply HG; eexists; split; [reflexivity|]; left; split; [reflexivity|]; right; split; [intros t []|left; reflexivity]).
    split; [|auto]. rewrite (HK eq_refl). cbn [thr_base keys map filter c_fields made_of]. cbn. unfold dmem. rewrite X, Y. reflexivity.
Qed.
Example c142_ancestor_case : exists all, to_dict (demo_rt 0) thr_ctx (DRef (TRec 1) 0) no_args sel_empty thr_state = (Ok all, thr_state) /\
  class_export (demo_rt 0) thr_base (DRef (TRec 1) 0) no_args sel_empty ret thr_state =
  (Ok (filter (fun kv => dmem (fst kv) (c_fields thr_base)) all), thr_state) /\ List.length all = 3.
Proof.
  destruct (c142_ancestor (demo_rt 0) thr_ctx (fun _ => True) dlit_eq thr_base thr_sub (DRef (TRec 1) 0) thr_inst no_args [] thr_state) as (all & E & H).
  - apply (descends_base _ thr_decl _ thr_base); [reflexivity|exact thr_sub_made|left; reflexivity|constructor; exact thr_base_made].
  - intros x y w _ _. split; reflexivity.
  - intros k f d _ _. exact I.
  - repeat split. intros k H. cbn in H. destruct H as [<-|[<-|[<-|[]]]]; eexists; reflexivity.
  - intros k v _ _. exact I.
  - reflexivity.
  - intros le H. discriminate.
  - exists all. split; [exact E|]. split; [exact H|]. cbn in E. injection E as <-. reflexivity.
Qed.
Example c142_from_instance_case : exists y w',
  from_instance (demo_rt 0) 1 thr_base sel_empty (DRef (TRec 1) 0) [] [] thr_state = (Ok y, w') /\
  from_mapping (demo_rt 0) 1 thr_base sel_empty [mapping [("x", DInt 3); ("y", DInt 1)]] [] thr_state = (Ok y, w').
Proof. eexists. eexists. split; reflexivity. Qed.
