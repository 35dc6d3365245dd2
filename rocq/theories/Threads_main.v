(** Threads_main.v -- proofs of the properties stated in Props_Threads.v: several threads that share records *)

From Verif Require Import Base Py Select Filler Spec_Filler Classes Spec_Classes Runtime Record Spec_Record Spec_Inst Threads Spec_Threads Demo DemoRt DemoCls.
From Verif Require Dict_proofs Filler_proofs Classes_main Record_proofs Inst_proofs Inst_main.
Open Scope string_scope.
Open Scope list_scope.

Import Dict_proofs Filler_proofs Classes_main Record_proofs Inst_proofs Inst_main.

Section Proc.
Context {W : Type}.
Fixpoint proc_ind' {A} (Q : proc (W:=W) A -> Prop) (HD : forall o, Q (Done o)) (HS : forall k, (forall w, Q (fst (k w))) -> Q (Step k))
  (p : proc (W:=W) A) : Q p :=
  match p with
  | Done o => HD o
  | Step k => HS k (fun w => match k w as q return Q (fst q) with (p', _) => proc_ind' Q HD HS p' end)
  end.

Lemma run_bind : forall {A B} (p : proc (W:=W) A) (f : A -> proc (W:=W) B) w, run (pbind p f) w = bind (run p) (fun a => run (f a)) w.
Proof.
  intros A B p f. induction p as [[a|e]|k IH] using proc_ind'; intro w; [reflexivity|reflexivity|].
  cbn. unfold bind in *. cbn. specialize (IH w). destruct (k w) as [p' w']. cbn [fst] in IH. rewrite IH. reflexivity.
Qed.
Lemma run_atom : forall {A} (m : M W A) w, run (atom m) w = m w.
Proof. intros A m w. cbn. destruct (m w). reflexivity. Qed.
Lemma bind_ext : forall {A B} (m m' : M W A) (k k' : A -> M W B) w, m w = m' w -> (forall a w', k a w' = k' a w') -> bind m k w = bind m' k' w.
Proof. intros A B m m' k k' w E H. unfold bind. rewrite E. destruct (m' w) as [[a|e] w']; [apply H|reflexivity]. Qed.
End Proc.

Section Alone.
Context {obj ty W : Type} (R : Rt obj ty W) (ctx : ty -> option (@cls obj ty W)).
Lemma run_extract_one : forall ok x a f w, run (extract_one_t R ok x a f) w = extract_one R ok x a f w.
Proof.
  intros ok x a f w. unfold extract_one_t, extract_one. destruct (export_field a f) as [[]|e]; [|reflexivity|reflexivity].
  cbn [run]. destruct (getattr R x (x_name f) w) as [[v|e] w1].
  - rewrite run_bind. apply bind_ext; [apply run_atom|]. intros. reflexivity.
  - destruct (is_AttributeError e); [|reflexivity]. destruct (negb (ok (x_name f))); [reflexivity|]. destruct (e_defaults a); [|reflexivity].
    destruct (x_default f); try reflexivity. rewrite run_bind. apply bind_ext; [apply run_atom|]. intros. reflexivity.
Qed.
Lemma run_extract : forall ok x a fs w, run (extract_t R ok x a fs) w = extract R ok x a fs w.
Proof.
  intros ok x a. induction fs as [|f r IH]; intro w; [reflexivity|]. cbn [extract_t extract]. rewrite run_bind. apply bind_ext; [apply run_extract_one|].
  intros h w'. rewrite run_bind. apply bind_ext; [apply IH|]. intros. reflexivity.
Qed.
Lemma run_to_dict : forall x a s w, run (to_dict_t R ctx x a s) w = to_dict R ctx x a s w.
Proof.
  intros x a s w. unfold to_dict_t, to_dict, with_class_t, with_class. cbn [run]. destruct (class_of R ctx x w) as [c|]; [|reflexivity].
  rewrite run_bind. unfold to_dict_of, bind. rewrite run_extract. destruct (extract R _ x a _ w) as [[l|e] w1]; reflexivity.
Qed.
Lemma run_pmap : forall l w, run (pmap (fun v => atom (v_hash R v)) l) w = mapM (v_hash R) l w.
Proof.
  induction l as [|v r IH]; intro w; [reflexivity|]. cbn [pmap mapM]. rewrite run_bind. apply bind_ext; [apply run_atom|].
  intros y w'. rewrite run_bind. apply bind_ext; [apply IH|]. intros. reflexivity.
Qed.
Lemma run_hash : forall x w, run (hash_t R ctx x) w = record_hash R ctx x w.
Proof.
  intros x w. unfold hash_t, record_hash. cbn [run]. destruct (lookup R w x) as [i|] eqn:EL; [|destruct (v_hash R x w); reflexivity].
  destruct (ctx (i_cls i)) as [c|]; [|destruct (v_hash R x w); reflexivity]. destruct (negb (c_frozen c)); [reflexivity|].
  destruct (i_hash i) eqn:EH; cbn [run read_slot]; [reflexivity| |rewrite EL, EH; reflexivity|rewrite EL, EH; reflexivity].
  rewrite run_bind. apply bind_ext; [apply run_to_dict|]. intros d w1. rewrite run_bind. apply bind_ext; [apply run_pmap|]. intros hs w2.
  rewrite run_bind. unfold bind. cbn [run write_slot read_slot]. destruct (lookup R w2 x) as [j|] eqn:EJ; [|rewrite EJ; reflexivity].
  rewrite (lookup_store_same R x _ j w2 EJ). reflexivity.
Qed.
Lemma run_fields : forall x y ks w, run (fields_equal_t R ks x y) w = fields_equal R ks x y w.
Proof.
  intros x y. induction ks as [|k r IH]; intro w; [reflexivity|]. cbn [fields_equal_t fields_equal]. rewrite run_bind. apply bind_ext; [apply run_atom|]. intros a w1.
  rewrite run_bind. apply bind_ext; [apply run_atom|]. intros b w2. rewrite run_bind. apply bind_ext; [apply run_atom|]. intros [] w3; [reflexivity|apply IH].
Qed.
Lemma run_eq : forall x y w, run (eq_t R ctx x y) w = record_eq R ctx x y w.
Proof.
  intros x y w. unfold eq_t, record_eq, with_class_t, with_class. cbn [run]. destruct (class_of R ctx x w) as [c|]; [|reflexivity].
  destruct (negb _); [reflexivity|]. rewrite run_bind. apply bind_ext.
  - destruct (c_frozen c); [|reflexivity]. rewrite run_bind. apply bind_ext; [apply run_hash|]. intros z w1. rewrite run_bind. apply bind_ext; [apply run_hash|].
    intros. reflexivity.
  - intros [] w1; [apply run_fields|reflexivity].
Qed.
End Alone.

Lemma c100_alone_proof : forall {obj ty W} (R : Rt obj ty W) ctx j w,
  run (job_steps R ctx j) w = job_alone R ctx j w.
Proof.
  intros obj ty W R ctx [x|x y|x a s|x k v|m] w; cbn [job_steps job_alone]; rewrite run_bind; apply bind_ext; try (intros; reflexivity);
    [apply run_hash|apply run_eq|apply run_to_dict|apply run_atom|apply run_atom].
Qed.

Section Leads.
Context {W : Type} (le : W -> W -> Prop).
Hypothesis le_refl : forall w, le w w.
Hypothesis le_trans : forall w1 w2 w3, le w1 w2 -> le w2 w3 -> le w1 w3.
(** if the other threads only make steps forward from [w], then so does [p], and [p] ends in [Q] *)
Inductive leads {A} (Q : outcome A -> Prop) : W -> proc (W:=W) A -> Prop :=
| leads_done w o : Q o -> leads Q w (Done o)
| leads_step w k : (forall w', le w w' -> le w' (snd (k w'))) -> (forall w', le w w' -> leads Q (snd (k w')) (fst (k w'))) -> leads Q w (Step k).
Lemma leads_weak : forall {A} (Q Q' : outcome A -> Prop) w p, (forall o, Q o -> Q' o) -> leads Q w p -> leads Q' w p.
Proof. intros A Q Q' w p H L. induction L as [w o HQ|w k H1 H2 IH]; constructor; auto. Qed.
Lemma leads_mono : forall {A} (Q : outcome A -> Prop) w w' p, le w w' -> leads Q w p -> leads Q w' p.
Proof. intros A Q w w' p H L. inversion L as [w1 o HQ|w1 k H1 H2]; subst; constructor; eauto. Qed.
Lemma leads_bind : forall {A B} (Q : outcome A -> Prop) (Q' : outcome B -> Prop) w p f, leads Q w p ->
  (forall a, Q (Ok a) -> leads Q' w (f a)) -> (forall e, Q (Raise e) -> Q' (Raise e)) -> leads Q' w (pbind p f).
Proof.
  intros A B Q Q' w p f L. induction L as [w [a|e] HQ|w k H1 H2 IH]; cbn; intros HO HE; [apply HO; exact HQ|constructor; apply HE; exact HQ|].
  constructor; intros w' HL; specialize (H1 w' HL); specialize (IH w' HL); destruct (k w') as [p' w2]; cbn [fst snd] in *; [assumption|].
  apply IH; [|exact HE]. intros a Ha. eapply leads_mono; [|apply HO; exact Ha]. eauto.
Qed.
Lemma leads_bind_ok : forall {A B} a (Q' : outcome B -> Prop) w (p : proc (W:=W) A) f, leads (eq (Ok a)) w p -> leads Q' w (f a) -> leads Q' w (pbind p f).
Proof. intros A B a Q' w p f L H. eapply leads_bind; [exact L| |]; cbn; intros x E; [injection E as <-; exact H|discriminate]. Qed.
Lemma leads_caught : forall {A} (Q : outcome (outcome A) -> Prop) w (p : proc (W:=W) A), leads (fun o => Q (Ok o)) w p -> leads Q w (caught p).
Proof.
  intros A Q w p L. induction L as [w o HQ|w k H1 H2 IH]; cbn; constructor; [exact HQ| |]; intros w' HL; specialize (H1 w' HL); specialize (IH w' HL); destruct (k w'); assumption.
Qed.
Lemma leads_atom : forall {A} (Q : outcome A -> Prop) w (m : M W A), (forall w', le w w' -> le w' (snd (m w')) /\ Q (fst (m w'))) -> leads Q w (atom m).
Proof. intros A Q w m H. constructor; intros w' HL; destruct (H w' HL); destruct (m w'); [assumption|constructor; assumption]. Qed.
Lemma leads_run : forall {A} (Q : outcome A -> Prop) p w, leads Q w p -> Q (fst (run p w)) /\ le w (snd (run p w)).
Proof.
  intros A Q p w L. induction L as [w o HQ|w k H1 H2 IH]; cbn; [auto|]. specialize (H1 w (le_refl w)). specialize (IH w (le_refl w)).
  destruct (k w) as [p' w']. cbn [fst snd] in *. destruct IH as [HQ HL]. eauto.
Qed.

(** pools *)
Lemma replaced_nth : forall {A} n m (x : A) l, nth_error (replaced n x l) m = if Nat.eqb n m then match nth_error l n with Some _ => Some x | None => None end else nth_error l m.
Proof.
  intros A. induction n as [|n IH]; intros [|m] x [|y r]; cbn; try reflexivity; [destruct (Nat.eqb n m); reflexivity|]. rewrite IH. reflexivity.
Qed.
Lemma execute_leads : forall {A} (Qs : nat -> outcome A -> Prop) sched pool w, (forall n p, nth_error pool n = Some p -> leads (Qs n) w p) ->
  le w (snd (execute sched pool w)) /\ forall n p, nth_error (fst (execute sched pool w)) n = Some p -> leads (Qs n) (snd (execute sched pool w)) p.
Proof.
  intros A Qs. induction sched as [|m r IH]; intros pool w HP; cbn; [auto|].
  destruct (nth_error pool m) as [[o|k]|] eqn:EM; try (apply IH; assumption).
  pose proof (HP m _ EM) as L. inversion L as [|w1 k' H1 H2]; subst. specialize (H1 w (le_refl w)). specialize (H2 w (le_refl w)).
  destruct (k w) as [p' w']. cbn [fst snd] in *.
  destruct (IH (replaced m p' pool) w') as [HL HN].
  { intros n p. rewrite replaced_nth, EM. destruct (Nat.eqb_spec m n) as [<-|N]; [|intro E; eapply leads_mono; [exact H1|apply HP; exact E]].
    intro E. injection E as <-. exact H2. }
  split; [eauto|exact HN].
Qed.
End Leads.

Section Shared.
Context {obj ty W : Type} (R : Rt obj ty W) (ctx : ty -> option (@cls obj ty W)).
Variable D : obj -> Prop.
Variable eqb : obj -> obj -> bool.
Variable hf : obj -> Z.
Hypothesis HE : has_eq R D eqb.
Notation cls := (@cls obj ty W).

Definition content (c : cls) (d : dict obj) : Z := tuple_hash R (map hf (dvalues (exported eqb no_args [] c (Inst (c_ty c) d SUnset)))).
Definition onward (w w' : W) : Prop :=
  forall x i c, lookup R w x = Some i -> ctx (i_cls i) = Some c -> c_frozen c = true ->
  exists j, lookup R w' x = Some j /\ i_cls j = i_cls i /\ i_dict j = i_dict i /\
    (i_hash j = i_hash i \/ i_hash i = SNone /\ i_hash j = SHash (content c (i_dict i))).
Lemma onward_refl : forall w, onward w w.
Proof. intros w x i c HL _ _. exists i. auto. Qed.
Lemma onward_trans : forall w1 w2 w3, onward w1 w2 -> onward w2 w3 -> onward w1 w3.
Proof.
  intros w1 w2 w3 H1 H2 x i c HL HC HF. destruct (H1 x i c HL HC HF) as (j & L & C & Dj & S).
  destruct (H2 x j c L) as (k & L' & C' & Dk & S'); [congruence|exact HF|]. exists k. split; [exact L'|]. split; [congruence|]. split; [congruence|].
  rewrite Dj in S'. destruct S as [S|[S1 S2]], S' as [S'|[S3 S4]]; [left; congruence|right; split; congruence|right; split; congruence|congruence].
Qed.
Lemma content_of : forall c i, tuple_hash R (map hf (dvalues (exported eqb no_args [] c i))) = content c (i_dict i).
Proof. reflexivity. Qed.
Variable w0 : W.
Notation Inv := (onward w0).
Notation leads := (leads onward).

Definition settled {A} (p : proc (W:=W) A) : Prop := exists o, leads (eq o) w0 p.
Lemma settled_done : forall {A} (o : outcome A), settled (Done o).
Proof. intros A o. exists o. constructor. reflexivity. Qed.
Lemma settled_bind_ok : forall {A B} a (p : proc (W:=W) A) (f : A -> proc (W:=W) B), leads (eq (Ok a)) w0 p -> settled (f a) -> settled (pbind p f).
Proof. intros A B a p f L [o Lo]. exists o. eapply leads_bind_ok; try eassumption; [exact onward_trans]. Qed.
Lemma settled_bind : forall {A B} (p : proc (W:=W) A) (f : A -> proc (W:=W) B), settled p -> (forall a, settled (f a)) -> settled (pbind p f).
Proof.
  intros A B p f [[a|e] L] H.
  - eapply settled_bind_ok; [exact L|apply H].
  - exists (Raise e). eapply leads_bind; [exact onward_trans|exact L| |]; cbn; intros x E; congruence.
Qed.
Lemma settled_atom : forall {A} (m : M W A) o, (forall w, Inv w -> m w = (o, w)) -> leads (eq o) w0 (atom m).
Proof. intros A m o H. apply leads_atom. intros w HI. rewrite (H w HI). split; [apply onward_refl|reflexivity]. Qed.
Lemma settled_run : forall {A} (p : proc (W:=W) A), settled p -> leads (eq (fst (run p w0))) w0 p.
Proof. intros A p [o L]. destruct (leads_run _ onward_refl onward_trans _ p w0 L) as [<- _]. exact L. Qed.

Section One.
Variables (c : cls) (x : obj) (i : inst obj ty).
Hypothesis HM : made (rt_py R) c.
Hypothesis HX : instance_of R ctx c w0 x i.
Hypothesis HF : c_frozen c = true.

Lemma shared_now : forall w, Inv w -> exists j, lookup R w x = Some j /\ i_cls j = c_ty c /\ i_dict j = i_dict i /\
  (i_hash j = i_hash i \/ i_hash i = SNone /\ i_hash j = SHash (content c (i_dict i))).
Proof.
  intros w HI. destruct HX as (EC & HL & HT & _). destruct (HI x i c HL) as (j & L & C & Dj & S); [congruence|exact HF|].
  exists j. repeat split; try assumption. congruence.
Qed.
Lemma shared_get : forall k v w, dget k (i_dict i) = Some v -> Inv w -> getattr R x k w = (Ok v, w).
Proof. intros k v w E HI. destruct (shared_now w HI) as (j & L & _ & Dj & _). unfold getattr. rewrite L, Dj, E. reflexivity. Qed.
Lemma shared_class : forall w, Inv w -> class_of R ctx x w = Some c.
Proof. intros w HI. destruct (shared_now w HI) as (j & L & C & _ & _). unfold class_of. rewrite L, C. apply HX. Qed.

Lemma frozen_set : forall k v w, k <> "_hash" -> Inv w -> exists m, setattr R ctx x k v w = (Raise (mkexc TypeError m), w).
Proof.
  intros k v w HN HI. destruct (shared_now w HI) as (j & L & C & _ & _). destruct HX as (EC & _). unfold setattr. rewrite L, C, EC.
  destruct (String.eqb_spec k "_hash"); [contradiction|]. rewrite HF. eauto.
Qed.

Hypothesis HD : defaults_in D c.
Hypothesis HV : values_in D c i.

Lemma shared_value : forall k f, In (k, f) (c_fields c) -> dget k (c_fields c) = Some f /\ f_name f = k /\ exists v, dget k (i_dict i) = Some v /\ D v.
Proof.
  intros k f HI. destruct (made_inv _ c HM) as [HO HN]. apply dget_In in HI; [|exact HO]. split; [exact HI|]. split; [apply (HN k f HI)|].
  assert (KI : In k (keys (c_fields c))) by (eapply dget_some_key; exact HI). destruct HX as (_ & _ & _ & _ & HFl). destruct (HFl k KI) as [v EV].
  exists v. split; [exact EV|]. exact (HV k v KI EV).
Qed.

Lemma settled_extract_one : forall ok a k f, In (k, f) (c_fields c) -> settled (extract_one_t R ok x a (real_field f)).
Proof.
  intros ok a k f HI. destruct (shared_value k f HI) as (EF & EN & v & EV & DV). unfold extract_one_t.
  destruct (export_field a (real_field f)) as [[]|e]; [|apply settled_done|apply settled_done].
  set (q := pbind (atom (export_value R a (real_field f) v)) (fun b => Done (Ok (if b : bool then [(x_name (real_field f), v)] else [])))).
  assert (SQ : settled q).
  { assert (B : exists b, forall w, export_value R a (real_field f) v w = (Ok b, w)).
    { unfold export_value. destruct (smem _ _ || e_defaults a); [exists true; reflexivity|]. cbn [real_field x_default].
      destruct (f_default f) as [|d|g] eqn:ED; [exists true; reflexivity| |exists true; reflexivity].
      exists (negb (eqb d v)). intro w. unfold bind. rewrite (proj1 (HE d v w (HD k f d EF ED) DV)). reflexivity. }
    destruct B as [b HB]. eapply settled_bind_ok; [|apply settled_done]. apply settled_atom. intros w _. apply HB. }
  destruct SQ as [o L]. exists o. constructor; intros w Hw; cbn [real_field x_name]; rewrite EN, (shared_get k v w EV Hw); cbn [fst snd]; [apply onward_refl|eapply leads_mono; [exact onward_trans|exact Hw|]].
  unfold q in L. cbn [real_field x_name] in L. rewrite EN in L. exact L.
Qed.
Lemma settled_extract : forall ok a fs, (forall k f, In (k, f) fs -> In (k, f) (c_fields c)) ->
  settled (extract_t R ok x a (map (fun kf => real_field (snd kf)) fs)).
Proof.
  intros ok a. induction fs as [|[k f] r IH]; intro H; [apply settled_done|]. cbn [map extract_t snd].
  apply settled_bind; [eapply settled_extract_one; apply H; left; reflexivity|]. intro h.
  apply settled_bind; [apply IH; intros; apply H; right; assumption|]. intro. apply settled_done.
Qed.
Lemma settled_class : forall {A} (k : cls -> proc (W:=W) A), settled (k c) -> settled (with_class_t R ctx x k).
Proof. intros A k [o L]. exists o. constructor; intros w Hw; cbn [fst snd]; [apply onward_refl|eapply leads_mono; [exact onward_trans|exact Hw|]]. rewrite (shared_class w Hw). exact L. Qed.
Lemma settled_dict : forall a s, settled (to_dict_t R ctx x a s).
Proof.
  intros a s. apply settled_class. rewrite extraction_empty. apply settled_bind; [apply settled_extract; auto|]. intro. apply settled_done.
Qed.
Lemma exported_dict : leads (eq (Ok (exported eqb no_args [] c i))) w0 (to_dict_t R ctx x no_args sel_empty).
Proof.
  pose proof (settled_run _ (settled_dict no_args sel_empty)) as L. rewrite run_to_dict in L.
  rewrite (to_dict_exported R ctx D eqb HE c no_args [] w0 x i) in L; [exact L| |exact HD|exact HX|exact HV|reflexivity].
  destruct (made_inv _ c HM) as [HO HN]. split; [exact HO|]. intros k f E. apply (HN k f E).
Qed.

Hypothesis HH : hashable R hf c i.
Lemma settled_pmap : forall l, (forall v w, In v l -> v_hash R v w = (Ok (hf v), w)) -> leads (eq (Ok (map hf l))) w0 (pmap (fun v => atom (v_hash R v)) l).
Proof.
  induction l as [|v r IH]; intro H; [constructor; reflexivity|]. cbn [pmap map].
  eapply leads_bind_ok; [exact onward_trans|apply settled_atom; intros w _; apply H; left; reflexivity|].
  eapply leads_bind_ok; [exact onward_trans|apply IH; intros; apply H; right; assumption|]. constructor. reflexivity.
Qed.
Lemma exported_hash : leads (eq (Ok (map hf (dvalues (exported eqb no_args [] c i))))) w0
  (pmap (fun v => atom (v_hash R v)) (dvalues (exported eqb no_args [] c i))).
Proof.
  apply settled_pmap. intros v w HI. apply in_map_iff in HI. destruct HI as ([k v'] & E & HI). cbn in E. subst v'.
  destruct (made_inv _ c HM) as [HO _]. apply in_exported in HI; [|exact HO]. destruct HI as (f & EF & EV & _).
  apply (HH k v); [eapply dget_some_key; exact EF|exact EV].
Qed.

Lemma slot_store : forall w, Inv w -> (forall j, lookup R w x = Some j -> i_hash j = SNone \/ i_hash j = SHash (content c (i_dict i))) ->
  onward w (snd ((fun w => (Done (W:=W) (Ok tt), match lookup R w x with
                                | Some j => store R x (Inst (i_cls j) (i_dict j) (SHash (content c (i_dict i)))) w
                                | None => w
                                end)) w)).
Proof.
  intros w HI HN. cbn [snd]. destruct (shared_now w HI) as (j & L & C & Dj & _). rewrite L. intros y i' c' HL HC HF'.
  destruct HX as (EC & HLx & HT & _).
  destruct (deref_dec (deref R x) (deref R y)) as [E|N].
  - assert (i' = j) by (unfold lookup in HL, L; rewrite E in L; congruence). subst i'.
    eexists. split; [eapply lookup_store_deref; eassumption|]. cbn [i_cls i_dict i_hash]. split; [reflexivity|]. split; [reflexivity|].
    assert (c' = c) by congruence. subst c'. rewrite Dj. destruct (HN j L) as [->| ->]; [right; auto|left; reflexivity].
  - rewrite lookup_store_other by assumption. exists i'. auto.
Qed.

Lemma settled_hash : settled (hash_t R ctx x).
Proof.
  pose proof HX as (EC & HL & HT & _).
  assert (LR : forall w z g, Inv w -> (exists j, lookup R w x = Some j /\ i_hash j = SHash z) -> leads (eq (Ok z)) w (read_slot R x g)).
  { intros w z g HI (j & L & EH). constructor; intros w' HO; cbn [fst snd]; [apply onward_refl|]. constructor.
    destruct (HO x j c L) as (k & L' & _ & _ & S); [|exact HF|].
    { destruct (shared_now w HI) as (j' & Lj & Cj & _). replace j with j' by congruence. rewrite Cj. exact EC. }
    rewrite L'. destruct S as [->|[S _]]; [rewrite EH; reflexivity|congruence]. }
  assert (ST : forall w, Inv w -> exists j, lookup R w x = Some j /\ ctx (i_cls j) = Some c /\ (i_hash j = i_hash i \/ i_hash i = SNone /\ i_hash j = SHash (content c (i_dict i)))).
  { intros w HI. destruct (shared_now w HI) as (j & L & C & Dj & S). exists j. rewrite C. auto. }
  destruct (i_hash i) as [| |z|] eqn:EH.
  - exists (Raise (mkexc AttributeError "_hash")). constructor; intros w HI; destruct (ST w HI) as (j & L & Cj & S); rewrite L, Cj, HF; cbn [negb fst snd].
    + apply onward_refl.
    + destruct S as [->|[S _]]; [|discriminate]. constructor. reflexivity.
  - exists (Ok (content c (i_dict i))). constructor; intros w HI; destruct (ST w HI) as (j & L & Cj & S); rewrite L, Cj, HF; cbn [negb fst snd]; [apply onward_refl|].
    destruct S as [->|[_ S]]; [|rewrite S; apply LR; [exact HI|eauto]].
    eapply leads_mono; [exact onward_trans|exact HI|].
    eapply leads_bind_ok; [exact onward_trans|exact exported_dict|]. eapply leads_bind_ok; [exact onward_trans|exact exported_hash|].
    rewrite content_of. unfold write_slot. constructor; intros w1 H1; cbn [fst snd].
    + apply (slot_store w1 H1). intros k Lk. destruct (ST w1 H1) as (k' & Lk' & _ & S'). replace k with k' by congruence. clear -S'; tauto.
    + assert (O : onward w1 (snd ((fun w => (Done (W:=W) (Ok tt), match lookup R w x with
                                | Some j => store R x (Inst (i_cls j) (i_dict j) (SHash (content c (i_dict i)))) w
                                | None => w
                                end)) w1))).
      { apply (slot_store w1 H1). intros k Lk. destruct (ST w1 H1) as (k' & Lk' & _ & S'). replace k with k' by congruence. clear -S'; tauto. }
      cbn [snd] in O. apply LR; [eapply onward_trans; eassumption|]. destruct (ST w1 H1) as (k & Lk & _). rewrite Lk.
      eexists. split; [eapply lookup_store_same; exact Lk|reflexivity].
  - exists (Ok z). constructor; intros w HI; destruct (ST w HI) as (j & L & Cj & S); rewrite L, Cj, HF; cbn [negb fst snd]; [apply onward_refl|].
    destruct S as [E|[S _]]; [|discriminate]. rewrite E. apply LR; [exact HI|]. exists j. split; [exact L|congruence].
  - exists (Raise (mkexc TypeError "__hash__ method should return an integer")). constructor; intros w HI; destruct (ST w HI) as (j & L & Cj & S); rewrite L, Cj, HF; cbn [negb fst snd]; [apply onward_refl|].
    destruct S as [E|[S _]]; [|discriminate]. rewrite E. constructor; intros w1 H1; cbn [fst snd]; [apply onward_refl|].
    constructor. destruct (ST w1) as (k & Lk & _ & [S|[S _]]); [eapply onward_trans; eassumption| |discriminate]. rewrite Lk, S. reflexivity.
Qed.
End One.

Section Two.
Variables (c : cls) (x : obj) (i : inst obj ty) (c' : cls) (y : obj) (i' : inst obj ty).
Hypothesis HM : made (rt_py R) c.
Hypothesis HX : instance_of R ctx c w0 x i.
Hypothesis HF : c_frozen c = true.
Hypothesis HV : values_in D c i.
Hypothesis HM' : made (rt_py R) c'.
Hypothesis HX' : instance_of R ctx c' w0 y i'.
Hypothesis HF' : c_frozen c' = true.
Hypothesis HV' : values_in D c' i'.

Lemma settled_fields : c = c' -> forall ks, incl ks (keys (c_fields c)) -> settled (fields_equal_t R ks x y).
Proof.
  intro EC. subst c'. induction ks as [|k r IH]; intro HI; [apply settled_done|]. cbn [fields_equal_t].
  assert (K : In k (keys (c_fields c))) by (apply HI; left; reflexivity).
  destruct HX as (H1 & H2 & H3 & H4 & HFl). destruct HX' as (H1' & H2' & H3' & H4' & HFl').
  destruct (HFl k K) as [v EV]. destruct (HFl' k K) as [v' EV'].
  eapply settled_bind_ok; [apply settled_atom; intros w Hw; eapply shared_get; eassumption|].
  eapply settled_bind_ok; [apply settled_atom; intros w Hw; eapply shared_get; [exact HX'| | |]; eassumption|].
  eapply settled_bind_ok; [apply settled_atom; intros w _; apply (proj2 (HE v v' w (HV k v K EV) (HV' k v' K EV')))|].
  destruct (negb (eqb v v')); [apply settled_done|]. apply IH. intros z Hz. apply HI. right. exact Hz.
Qed.
Hypothesis HD : defaults_in D c.
Hypothesis HH : hashable R hf c i.
Hypothesis HD' : defaults_in D c'.
Hypothesis HH' : hashable R hf c' i'.
Lemma settled_eq : settled (eq_t R ctx x y).
Proof.
  unfold eq_t. eapply settled_class; [exact HX|exact HF|].
  destruct (ty_eqb (rt_py R) _ _) eqn:ET; cbn [negb]; [|apply settled_done]. rewrite HF.
  apply settled_bind; [apply settled_bind; [exact (settled_hash c x i HM HX HF HD HV HH)|]; intro; apply settled_bind; [exact (settled_hash c' y i' HM' HX' HF' HD' HV' HH')|]; intro; apply settled_done|].
  intros []; cbn [negb]; [|apply settled_done]. apply settled_fields; [|intros z Hz; exact Hz].
  destruct (ty_eqP (rt_py R) (type_of (rt_py R) x) (type_of (rt_py R) y)) as [E|]; [|discriminate].
  destruct HX as (H1 & _ & _ & H4 & _). destruct HX' as (H1' & _ & _ & H4' & _). rewrite H4, H4' in E. rewrite E in H1. congruence.
Qed.
End Two.

Lemma settled_job : forall j, sharing R ctx D hf w0 j -> match j with JOther _ => leads (fun _ => True) w0 (job_steps R ctx j) | _ => settled (job_steps R ctx j) end.
Proof.
  intros [x|x y|x a s|x k v|m]; cbn [sharing job_steps].
  - intros (c & i & HM & HX & HF & HD & HV & HH). apply settled_bind; [eapply settled_hash; eassumption|]. intro. apply settled_done.
  - intros [(c & i & HM & HX & HF & HD & HV & HH) (c' & i' & HM' & HX' & HF' & HD' & HV' & HH')].
    apply settled_bind; [eapply (settled_eq c x i c' y i'); eassumption|]. intro. apply settled_done.
  - intros (c & i & HM & HX & HF & HD & HV & HH). apply settled_bind; [eapply settled_dict; eassumption|]. intro. apply settled_done.
  - intros [(c & i & HX & HF) HN]. apply settled_bind; [|intro; apply settled_done]. eexists. apply settled_atom.
    intros w HI. destruct (shared_now c x i HX HF w HI) as (j & L & C & _). pose proof HX as (EC & _). unfold setattr. rewrite L, C, EC.
    destruct (String.eqb_spec k "_hash"); [contradiction|]. rewrite HF. reflexivity.
  - intro H. eapply (leads_bind onward onward_trans (fun _ => True)); [|intros; constructor; exact I|intros; exact I].
    apply leads_atom. intros w HI. split; [|exact I]. intros x i c HL HC HF. exists i. split; [eapply H; eassumption|auto].
Qed.

Definition answered (j : job (obj:=obj) (W:=W)) (o : outcome answer) : Prop := match j with JOther _ => True | _ => o = fst (job_alone R ctx j w0) end.
Lemma run_job : forall j w, run (job_steps R ctx j) w = job_alone R ctx j w.
Proof. intros j w. destruct j; cbn [job_steps job_alone]; rewrite run_bind; apply bind_ext; intros; first [apply run_hash|apply run_eq|apply run_to_dict|apply run_atom|reflexivity]. Qed.
Lemma job_leads : forall j, sharing R ctx D hf w0 j -> leads (answered j) w0 (job_steps R ctx j).
Proof.
  intros j H. pose proof (settled_job j H) as S. unfold answered.
  destruct j; [| | | |exact S]; apply settled_run in S; rewrite run_job in S; (eapply leads_weak; [|exact S]); intros ? <-; reflexivity.
Qed.
Lemma thread_leads : forall js, (forall j, In j js -> sharing R ctx D hf w0 j) -> leads (fun o => exists os, o = Ok os /\ Forall2 answered js os) w0 (thread R ctx js).
Proof.
  induction js as [|j r IH]; intro H; cbn [thread]; [constructor; exists []; auto|].
  eapply (leads_bind onward onward_trans (fun o => exists a, o = Ok a /\ answered j a)).
  - apply leads_caught. eapply leads_weak; [|apply job_leads; apply H; left; reflexivity]. intros o Ho. exists o. auto.
  - intros o (o' & E & Ho). injection E as <-.
    eapply (leads_bind onward onward_trans); [apply IH; intros; apply H; right; assumption| |].
    + intros os (os' & E & Hos). injection E as <-. constructor. eexists. split; [reflexivity|]. constructor; assumption.
    + intros e (os' & E & _). discriminate.
  - intros e (o' & E & _). discriminate.
Qed.
End Shared.

Section Finish.
Context {W A : Type}.
Implicit Types (p : proc (W:=W) A) (pool : list (proc (W:=W) A)).
Lemma execute_app : forall s1 s2 pool w, execute (s1 ++ s2) pool w = let (pool', w') := execute s1 pool w in execute s2 pool' w'.
Proof.
  induction s1 as [|n r IH]; intros s2 pool w; cbn; [reflexivity|]. destruct (nth_error pool n) as [[o|k]|]; try apply IH. destruct (k w). apply IH.
Qed.
Lemma finish_one : forall p pool n w, nth_error pool n = Some p -> exists s o, nth_error (fst (execute s pool w)) n = Some (Done o) /\
  forall m, m <> n -> nth_error (fst (execute s pool w)) m = nth_error pool m.
Proof.
  intro p. induction p as [o|k IH] using proc_ind'; intros pool n w EN.
  - exists [], o. auto.
  - destruct (IH w (replaced n (fst (k w)) pool) n (snd (k w))) as (s & o & H1 & H2).
    { rewrite replaced_nth, Nat.eqb_refl, EN. reflexivity. }
    exists (n :: s), o. cbn [execute]. rewrite EN. destruct (k w) as [p' w'] eqn:EK. cbn [fst snd] in *. split; [exact H1|].
    intros m N. rewrite (H2 m N), replaced_nth. destruct (Nat.eqb_spec n m); [congruence|reflexivity].
Qed.
Lemma finish_all : forall m pool w, exists s, forall n p, n < m -> nth_error (fst (execute s pool w)) n = Some p -> exists o, p = Done o.
Proof.
  induction m as [|m IH]; intros pool w; [exists []; lia|]. destruct (IH pool w) as [s Hs].
  destruct (execute s pool w) as [pool' w'] eqn:E. cbn [fst] in Hs. destruct (nth_error pool' m) as [q|] eqn:EM.
  - destruct (finish_one q pool' m w' EM) as (s2 & o & H1 & H2). exists (s ++ s2). intros n p LT. rewrite execute_app, E.
    destruct (Nat.eq_dec n m) as [->|N]; [rewrite H1; intro X; injection X as <-; eauto|]. rewrite (H2 n N). apply Hs. lia.
  - exists s. intros n p LT. rewrite E. cbn [fst]. intro X. assert (n <> m) by (intros ->; congruence). apply (Hs n p); [lia|exact X].
Qed.
Lemma replaced_length : forall n (x : proc (W:=W) A) l, List.length (replaced n x l) = List.length l.
Proof. induction n as [|n IH]; intros x [|y r]; cbn; auto. Qed.
Lemma execute_length : forall s pool w, List.length (fst (execute s pool w)) = List.length pool.
Proof.
  induction s as [|n r IH]; intros pool w; cbn; [reflexivity|]. destruct (nth_error pool n) as [[o|k]|]; try apply IH. destruct (k w). rewrite IH. apply replaced_length.
Qed.
End Finish.

Lemma c100_schedules_proof : forall {obj ty W} (R : Rt obj ty W) ctx D eqb hf w ts, has_eq R D eqb ->
  (forall js j, In js ts -> In j js -> sharing R ctx D hf w j) ->
  forall sched pool w', execute sched (map (thread R ctx) ts) w = (pool, w') ->
  frozen_as_in R ctx w w' /\
  forall n js, nth_error ts n = Some js -> exists p, nth_error pool n = Some p /\
    forall o, p = Done o -> exists os, o = Ok os /\
    Forall2 (fun j o => match j with JOther _ => True | _ => o = fst (job_alone R ctx j w) end) js os.
Proof.
  intros obj ty W R ctx D eqb hf w ts HE HS sched pool w' EX.
  set (Qs := fun n (o : outcome (list (outcome answer))) => forall js, nth_error ts n = Some js -> exists os, o = Ok os /\ Forall2 (answered R ctx w) js os).
  destruct (execute_leads (onward R ctx eqb hf) (onward_refl R ctx eqb hf) (onward_trans R ctx eqb hf) Qs sched (map (thread R ctx) ts) w) as [HO HN].
  - intros n p. rewrite nth_error_map. destruct (nth_error ts n) as [js|] eqn:EN; cbn [option_map]; [|discriminate]. intro E. injection E as <-.
    eapply leads_weak; [|eapply (thread_leads R ctx D eqb hf HE w js); intros j Hj; eapply HS; [eapply nth_error_In; exact EN|exact Hj]].
    intros o Ho js' E. unfold Qs in *. assert (js' = js) by congruence. subst. exact Ho.
  - rewrite EX in HO, HN. cbn [fst snd] in HO, HN. split.
    + intros x i c HL HC HF. destruct (HO x i c HL HC HF) as (j & L & C & Dj & _). eauto.
    + intros n js EN. assert (LN : n < List.length pool).
      { pose proof (execute_length sched (map (thread R ctx) ts) w) as EL. rewrite EX, map_length in EL. cbn [fst] in EL. rewrite EL.
        apply nth_error_Some. congruence. }
      destruct (nth_error pool n) as [p|] eqn:EP; [|apply nth_error_None in EP; lia]. exists p. split; [reflexivity|]. intros o E. subst p.
      specialize (HN n _ EP). inversion HN as [? ? HQ|]; subst. exact (HQ js EN).
Qed.

Lemma c100_finishes_proof : forall {obj ty W} (R : Rt obj ty W) ctx ts sched w,
  exists more, Forall (fun p => exists o, p = Done o) (fst (execute (sched ++ more) (map (thread R ctx) ts) w)).
Proof.
  intros obj ty W R ctx ts sched w. destruct (execute sched (map (thread R ctx) ts) w) as [pool w'] eqn:E.
  destruct (finish_all (List.length pool) pool w') as [s Hs]. exists s. rewrite execute_app, E. apply Forall_forall. intros p Hp.
  apply In_nth_error in Hp. destruct Hp as [n Hn]. apply (Hs n p); [|exact Hn].
  rewrite <- (execute_length s pool w'). apply nth_error_Some. congruence.
Qed.

Section Shows.
Context {W : Type} (S : W -> Prop).
(** [p], run step by step in states of [S] in whatever order, ends in [Q] *)
Inductive shows {A} (Q : outcome A -> Prop) : proc (W:=W) A -> Prop :=
| shows_done o : Q o -> shows Q (Done o)
| shows_step k : (forall w, S w -> shows Q (fst (k w))) -> shows Q (Step k).
Lemma shows_bind : forall {A B} (Q : outcome A -> Prop) (Q' : outcome B -> Prop) p f, shows Q p ->
  (forall a, Q (Ok a) -> shows Q' (f a)) -> (forall e, Q (Raise e) -> Q' (Raise e)) -> shows Q' (pbind p f).
Proof.
  intros A B Q Q' p f L HO HR. induction L as [[a|e] HQ|k H IH]; cbn; [apply HO; exact HQ|constructor; apply HR; exact HQ|].
  constructor. intros w HS. specialize (IH w HS). destruct (k w). exact IH.
Qed.
Lemma shows_atom : forall {A} (Q : outcome A -> Prop) (m : M W A), (forall w, S w -> Q (fst (m w))) -> shows Q (atom m).
Proof. intros A Q m H. constructor. intros w HS. specialize (H w HS). destruct (m w). constructor. exact H. Qed.
Lemma execute_shows : forall {A} (Qs : nat -> outcome A -> Prop) sched pool w, (forall w', In w' (moments sched pool w) -> S w') ->
  (forall n p, nth_error pool n = Some p -> shows (Qs n) p) ->
  forall n p, nth_error (fst (execute sched pool w)) n = Some p -> shows (Qs n) p.
Proof.
  intros A Qs. induction sched as [|m r IH]; intros pool w HM HP; cbn [execute moments] in *; [exact HP|].
  destruct (nth_error pool m) as [[o|k]|] eqn:EM; try (apply IH; [intros; apply HM; right; assumption|assumption]).
  pose proof (HP m _ EM) as L. inversion L as [|k' H]; subst. specialize (H w (HM w (or_introl eq_refl))). destruct (k w) as [p' w']. cbn [fst] in *.
  apply IH; [intros; apply HM; right; assumption|]. intros n p. rewrite replaced_nth, EM. destruct (Nat.eqb_spec m n) as [<-|N]; [|apply HP].
  intro E. injection E as <-. exact H.
Qed.
Lemma shows_true : forall {A} (p : proc (W:=W) A), shows (fun _ => True) p.
Proof. intros A p. induction p as [o|k IH] using proc_ind'; constructor; auto. Qed.
End Shows.

Section Snapshot.
Context {obj ty W : Type} (R : Rt obj ty W) (ctx : ty -> option (@cls obj ty W)) (S : W -> Prop).
Variables (x : obj) (c : @cls obj ty W).
Hypothesis HM : made (rt_py R) c.
Hypothesis HC : forall w, S w -> class_of R ctx x w = Some c.
Hypothesis HG : forall w k, S w -> In k (keys (c_fields c)) -> exists v, fst (getattr R x k w) = Ok v.

Definition seen (d : dict obj) : Prop := forall k v, In (k, v) d -> In k (keys (c_fields c)) /\ exists w, S w /\ fst (getattr R x k w) = Ok v.
Lemma shows_one : forall ok a k f, In (k, f) (c_fields c) ->
  shows S (fun o => forall d, o = Ok d -> seen d /\ (e_defaults a = true -> e_black a = BlackSet [] -> keys d = [k])) (extract_one_t R ok x a (real_field f)).
Proof.
  intros ok a k f HI. destruct (made_inv _ c HM) as [HO HN]. pose proof HI as HI'. apply dget_In in HI; [|exact HO]. pose proof (proj1 (HN k f HI)) as EN.
  assert (KI : In k (keys (c_fields c))) by (eapply dget_some_key; exact HI).
  unfold extract_one_t. destruct (export_field a (real_field f)) as [[]|e] eqn:EX; [|constructor|constructor].
  - constructor. intros w HS. cbn [real_field x_name]. rewrite EN. destruct (HG w k HS KI) as [v EV]. destruct (getattr R x k w) as [o w1] eqn:EG. cbn [fst] in *. subst o.
    eapply (shows_bind S (fun o => e_defaults a = true -> o = Ok true)).
    + apply shows_atom. intros w2 _ ED. unfold export_value. rewrite ED, Bool.orb_true_r. reflexivity.
    + intros b Hb. constructor. intros d E. injection E as <-. split.
      * destruct b; [|intros ? ? []]. intros k' v' [E|[]]. injection E as <- <-. split; [exact KI|]. exists w. rewrite EG. auto.
      * intros ED _. specialize (Hb ED). injection Hb as ->. reflexivity.
    + intros e _ d E. discriminate.
  - intros d E. injection E as <-. split; [intros ? ? []|]. intros _ EB. unfold export_field in EX. rewrite EB in EX. destruct (smem _ _); [discriminate|]. injection EX as EX. apply Bool.negb_false_iff in EX. apply existsb_exists in EX. destruct EX as (t & _ & EX). discriminate.
  - intros d E. discriminate.
Qed.
Lemma shows_all : forall ok a fs, (forall k f, In (k, f) fs -> In (k, f) (c_fields c)) ->
  shows S (fun o => forall d, o = Ok d -> seen d /\ (e_defaults a = true -> e_black a = BlackSet [] -> keys d = keys fs))
    (extract_t R ok x a (map (fun kf => real_field (snd kf)) fs)).
Proof.
  intros ok a. induction fs as [|[k f] r IH]; intro H; cbn [map extract_t snd].
  - constructor. intros d E. injection E as <-. split; [intros ? ? []|reflexivity].
  - eapply shows_bind; [apply (shows_one ok a k f); apply H; left; reflexivity| |intros e _ d E; discriminate].
    intros h Hh. destruct (Hh h eq_refl) as [S1 K1].
    eapply shows_bind; [apply IH; intros; apply H; right; assumption| |intros e _ d E; discriminate].
    intros t Ht. destruct (Ht t eq_refl) as [S2 K2]. constructor. intros d E. injection E as <-. split.
    + intros k' v' Hin. apply in_app_or in Hin. destruct Hin; auto.
    + intros ED EB. unfold keys in *. rewrite map_app, (K1 ED EB), (K2 ED EB). reflexivity.
Qed.
Lemma shows_dict : forall a,
  shows S (fun o => forall d, o = Ok d -> seen d /\ (e_defaults a = true -> e_black a = BlackSet [] -> Permutation (keys d) (keys (c_fields c))))
    (to_dict_t R ctx x a sel_empty).
Proof.
  intro a. constructor. intros w HS. cbn [fst]. rewrite (HC w HS), extraction_empty.
  eapply shows_bind; [apply shows_all; auto| |intros e _ d E; discriminate].
  intros l Hl. destruct (Hl l eq_refl) as [S1 K1]. constructor. intros d. rewrite sel_apply_empty. intro E. injection E as <-.
  assert (PM : Permutation l (sort_items (e_sort a) l)) by (destruct (e_sort a); cbn [sort_items]; [reflexivity|apply sort_perm..]). split.
  - intros k v Hin. apply S1. eapply Permutation_in; [|exact Hin]. first [exact PM|symmetry; exact PM].
  - intros ED EB. rewrite <- (K1 ED EB). apply Permutation_map. first [exact PM|symmetry; exact PM].
Qed.
End Snapshot.

Lemma c101_fields_partial_proof : forall {obj ty W} (R : Rt obj ty W) ctx c x a sched pool n w d, made (rt_py R) c ->
  nth_error pool n = Some (to_dict_t R ctx x a sel_empty) ->
  (forall w1, In w1 (moments sched pool w) -> class_of R ctx x w1 = Some c /\
     forall k, In k (keys (c_fields c)) -> exists v, fst (getattr R x k w1) = Ok v) ->
  nth_error (fst (execute sched pool w)) n = Some (Done (Ok d)) ->
  (forall k v, In (k, v) d -> In k (keys (c_fields c)) /\ exists w1, In w1 (moments sched pool w) /\ fst (getattr R x k w1) = Ok v) /\
  (e_defaults a = true -> e_black a = BlackSet [] -> Permutation (keys d) (keys (c_fields c))).
Proof.
  intros obj ty W R ctx c x a sched pool n w d HM EN HW ED.
  set (S := fun w1 => In w1 (moments sched pool w)).
  set (Q := fun o : outcome (dict obj) => forall d, o = Ok d -> seen R S x c d /\ (e_defaults a = true -> e_black a = BlackSet [] -> Permutation (keys d) (keys (c_fields c)))).
  pose proof (execute_shows S (fun m o => if Nat.eqb m n then Q o else True) sched pool w (fun _ H => H)) as HS.
  assert (HP : forall m p, nth_error pool m = Some p -> shows S (fun o => if Nat.eqb m n then Q o else True) p).
  { intros m p Em. destruct (Nat.eqb_spec m n) as [->|N]; [|apply shows_true]. rewrite EN in Em. injection Em as <-.
    apply (shows_dict R ctx S x c HM); [intros w1 Hw|intros w1 k Hw]; apply (HW w1 Hw). }
  specialize (HS HP n _ ED). cbn beta in HS. rewrite Nat.eqb_refl in HS. inversion HS as [? HQ|]; subst. destruct (HQ d eq_refl) as [H1 H2]. split; [exact H1|exact H2].
Qed.

(** two threads and one record that can be changed: one exports it, the other sets both fields to 1 *)
Definition torn_decl := rdecl 0 false false (Some false) SHollow [("a", (an TInt, NoDefault)); ("b", (an TInt, NoDefault))] [] no_post.
Definition torn_ctx (t : dty) : option (@cls dobj dty rstate) := match t with TRec 0 => Some (made_of torn_decl) | _ => None end.
Definition torn_state : rstate := RState [] [Inst (TRec 0) [("a", DInt 0); ("b", DInt 0)] SUnset] [].
Definition torn_threads : list (list (job (obj:=dobj) (W:=rstate))) :=
  [[JToDict (DRef (TRec 0) 0) no_args sel_empty]; [JSet (DRef (TRec 0) 0) "a" (DInt 1); JSet (DRef (TRec 0) 0) "b" (DInt 1)]].
Definition torn_pool := map (thread (demo_rt 0) torn_ctx) torn_threads.

Lemma c101_whole_refuted_proof : exists sched w' os d,
  execute sched torn_pool torn_state = ([Done (Ok [Ok (NDict d)]); Done (Ok os)], w') /\
  os = [Ok NNothing; Ok NNothing] /\
  ~ exists w1, In w1 (moments sched torn_pool torn_state) /\ exists w2, to_dict (demo_rt 0) torn_ctx (DRef (TRec 0) 0) no_args sel_empty w1 = (Ok d, w2).
Proof.
  exists [0; 0; 0; 1; 1; 0; 0]. eexists. exists [Ok NNothing; Ok NNothing]. exists [("a", DInt 0); ("b", DInt 1)].
  split; [vm_compute; reflexivity|]. split; [reflexivity|].
  intros (w1 & HI & w2 & E).
  assert (HA : forallb (fun w => match fst (to_dict (demo_rt 0) torn_ctx (DRef (TRec 0) 0) no_args sel_empty w) with
                                 | Ok [(_, DInt a); (_, DInt b)] => negb (Z.eqb a 0 && Z.eqb b 1)
                                 | _ => false
                                 end) (moments [0; 0; 0; 1; 1; 0; 0] torn_pool torn_state) = true) by (vm_compute; reflexivity).
  rewrite forallb_forall in HA. specialize (HA w1 HI). rewrite E in HA. discriminate.
Qed.
