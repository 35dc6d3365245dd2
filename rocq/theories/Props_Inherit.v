(** Props_Inherit.v -- property theorems: subclasses without fields of their own, or with optional ones (records/record.py:77-158, 168-252)
    Each theorem is closed by the lemma of the same statement in Inherit_main.v; the examples
    show that concrete, non-trivial cases meet the hypotheses. *)

From Verif Require Import Base Py Select Filler Spec_Filler Classes Spec_Classes Runtime Record Spec_Record Spec_Inherit Demo DemoRt DemoCls.
From Verif Require Filler_proofs Record_proofs Dict_proofs Classes_proofs Classes_main From_main.
Open Scope string_scope.
Open Scope list_scope.

From Verif Require Import Inherit_main.

(** C172: a subclass that declares no fields has the fields of its parent, as they are, whatever the options of the two classes *)
Theorem c172_fields : forall {obj ty W} (P : Py obj ty W) c c', bodyless P c c' -> c_fields c' = c_fields c.
Proof. exact (@c172_fields_proof). Qed.
Print Assumptions c172_fields.

(** C172: it stores the same objects for the same keyword arguments, with the same effects, and refuses the same ones with the same errors, even if the
    parent checks types and the subclass does not ask for that *)
Theorem c172_keywords_partial : forall {obj ty W} (R : Rt obj ty W) c c' n kw w, bodyless (rt_py R) c c' -> no_post_new R c -> no_post_new R c' -> no_reserved kw ->
  ends_alike R c c' (construct R (S n) c None kw w) (construct R (S n) c' None kw w).
Proof. exact (@c172_keywords_partial_proof). Qed.
Print Assumptions c172_keywords_partial.

(** C172: a subclass whose own fields all have defaults accepts the keyword arguments its parent accepts, and stores the same objects for the
    fields of the parent and the defaults for its own; what the parent refuses among its own fields it refuses with the same error *)
Theorem c172_further_partial : forall {obj ty W} (R : Rt obj ty W) d c c' n kw w, made (rt_py R) c -> make_class (rt_py R) d = Ok c' -> d_bases d = [BRecord c] -> dict_ok (d_anns d) ->
  (forall k f, dget k (c_fields c') = Some f -> ~ In k (keys (c_fields c)) -> has_default f = true) -> plain_defaults c' ->
  no_post_new R c -> no_post_new R c' -> no_reserved kw ->
  (forall x w1, construct R (S n) c None kw w = (Ok x, w1) -> exists y w2 i j, construct R (S n) c' None kw w = (Ok y, w2) /\
     lookup R w1 x = Some i /\ lookup R w2 y = Some j /\
     (forall k, In k (keys (c_fields c)) -> dget k (i_dict j) = dget k (i_dict i)) /\
     (forall k f v, dget k (c_fields c') = Some f -> ~ In k (keys (c_fields c)) -> f_default f = DefVal v -> dget k (i_dict j) = Some v)) /\
  (forall e w1, known c kw -> construct R (S n) c None kw w = (Raise e, w1) -> construct R (S n) c' None kw w = (Raise e, w1)).
Proof. exact (@c172_further_partial_proof). Qed.
Print Assumptions c172_further_partial.

(** C172: refuted for a positional argument: the option unary_parse of the parent is not inherited, so the parent parses what the subclass refuses *)
Theorem c172_positional_refuted : exists c c' a w x w1 e w2, bodyless (rt_py (demo_rt 0)) c c' /\ c_parsers c' = c_parsers c /\
  construct (demo_rt 0) 2 c (Some a) [] w = (Ok x, w1) /\ construct (demo_rt 0) 2 c' (Some a) [] w = (Raise e, w2) /\ exc_cls e = TypeError.
Proof. exact (@c172_positional_refuted_proof). Qed.
Print Assumptions c172_positional_refuted.

Example c172_case : bodyless (rt_py (demo_rt 0)) pa pb /\ no_post_new (demo_rt 0) pa /\ no_post_new (demo_rt 0) pb /\
  (exists e, construct (demo_rt 0) 2 pb None [("x", DStr "5")] w0 = (Raise e, w0) /\ exc_cls e = TypeError) /\
  (exists x w1, construct (demo_rt 0) 2 pb None [("x", DInt 5)] w0 = (Ok x, w1)).
Proof.
  split; [|split; [intros x w; reflexivity|split; [intros x w; reflexivity|split; [eexists; split; reflexivity|do 2 eexists; reflexivity]]]].
  unfold bodyless. exists (TRec 1), false, false, None, SHollow, [], (fun _ => NoDefault), [BOther; BRecord pa], [("of", fun _ => ret (DStr "parsed"))], no_post. split; [exists 1, 0; reflexivity|]. split; [|reflexivity].
  intros k f [E|[]]. injection E as <- <-. discriminate.
Qed.

Example c172_further_case : exists c', make_class (rt_py (demo_rt 0)) pd = Ok c' /\ d_bases pd = [BRecord pa] /\ dict_ok (d_anns pd) /\
  (forall k f, dget k (c_fields c') = Some f -> ~ In k (keys (c_fields pa)) -> has_default f = true) /\ plain_defaults c' /\
  (exists y w2 j, construct (demo_rt 0) 2 c' None [("x", DInt 5)] w0 = (Ok y, w2) /\ lookup (demo_rt 0) w2 y = Some j /\
     dget "x" (i_dict j) = Some (DInt 5) /\ dget "z" (i_dict j) = Some (DInt 3)).
Proof.
  eexists. split; [reflexivity|]. split; [reflexivity|]. split; [repeat constructor; intros []|]. split; [|split].
  - intros k f E HN. cbn in E, HN. destruct (String.eqb k "x") eqn:EX; [apply String.eqb_eq in EX; subst k; exfalso; apply HN; left; reflexivity|].
    destruct (String.eqb k "z") eqn:EZ; [injection E as <-; reflexivity|discriminate].
  - intros k f g E. cbn in E. destruct (String.eqb k "x"); [injection E as <-; discriminate|]. destruct (String.eqb k "z"); [injection E as <-; discriminate|discriminate].
  - do 3 eexists. split; [reflexivity|]. split; [reflexivity|]. split; reflexivity.
Qed.
