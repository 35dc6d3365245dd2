(** Names_main.v -- proofs of the properties stated in Props_Names.v: annotations written as text *)

From Verif Require Import Base Py Filler Classes Names Spec_Names Dict_proofs Classes_proofs.
Open Scope string_scope.
Open Scope list_scope.

Section Names.
Context {V op : Type} (L : Lang V op).
Notation value := (value V).

Fixpoint value_ind2 (Q : value -> Prop) (f1 : forall v, Q (VObj v)) (f2 : forall s, Q (VText s))
  (f3 : forall r s, Q (VRef r s)) (f4 : forall a args, Forall Q args -> Q (VAlias a args)) (v : value) : Q v :=
  match v with
  | VObj v => f1 v
  | VText s => f2 s
  | VRef r s => f3 r s
  | VAlias a args => f4 a args ((fix go (l : list value) : Forall Q l :=
      match l with [] => Forall_nil _ | x :: r => Forall_cons _ (value_ind2 Q f1 f2 f3 f4 x) (go r) end) args)
  end.
Fixpoint expr_ind2 (Q : expr op -> Prop) (f1 : forall n, Q (XName n)) (f2 : forall s, Q (XText s))
  (f3 : forall o args, Forall Q args -> Q (XOp o args)) (e : expr op) : Q e :=
  match e with
  | XName n => f1 n
  | XText s => f2 s
  | XOp o args => f3 o args ((fix go (l : list (expr op)) : Forall Q l :=
      match l with [] => Forall_nil _ | x :: r => Forall_cons _ (expr_ind2 Q f1 f2 f3 x) (go r) end) args)
  end.

Lemma settled_refs : forall v : value, settled v <-> has_ref v = false.
Proof.
  induction v as [v|s|r s|a args IH] using value_ind2; cbn; try tauto; [intuition discriminate|].
  induction IH as [|x l Hx _ IHl]; cbn; [tauto|]. rewrite orb_false_iff, Hx, IHl. tauto.
Qed.
Lemma settled_args : forall (args : list value), fold_right (fun a p => settled a /\ p) True args <-> existsb has_ref args = false.
Proof. induction args as [|x l IH]; cbn; [tauto|]. rewrite orb_false_iff, settled_refs, IH. tauto. Qed.

(** ** Names and expressions *)
Lemma lookup_own : forall c g n, lookup L n (own_scope c) g =
  match bound L c g n with Some v => Ok v | None => Raise (mkexc NameError n) end.
Proof.
  intros c g n. unfold lookup, bound, own_scope. rewrite !dget_dset. cbn [dget].
  destruct (String.eqb n (k_name c)), (String.eqb n (k_qualname c)); cbn [orb]; try reflexivity;
  destruct (dget n g); try reflexivity; destruct (dget n (builtins L)); reflexivity.
Qed.
Lemma lookup_visible : forall l g n, lookup L n l g =
  match visible L l g n with Some v => Ok v | None => Raise (mkexc NameError n) end.
Proof.
  intros l g n. unfold lookup, visible. destruct (dget n l); [reflexivity|]. destruct (dget n g); [reflexivity|].
  destruct (dget n (builtins L)); reflexivity.
Qed.

Lemma means_eval : forall env l g, (forall n v, env n = Some v -> lookup L n l g = Ok v) ->
  forall e v, means L env e v -> eval L l g e = Ok v.
Proof.
  intros env l g H. fix IH 3. intros e v D. destruct D as [n v E|s|o args vs v A O].
  - cbn. apply H. exact E.
  - reflexivity.
  - cbn [eval]. assert (M : mapO (eval L l g) args = Ok vs).
    { clear O. revert args vs A. fix IHA 3. intros args vs A. destruct A as [|e1 v1 es vs D1 A].
      - reflexivity.
      - cbn [mapO]. rewrite (IH _ _ D1). cbn [obind]. rewrite (IHA _ _ A). reflexivity. }
    rewrite M. cbn [obind]. exact O.
Qed.
Lemma eval_means : forall env l g, (forall n v, lookup L n l g = Ok v -> env n = Some v) ->
  forall e v, eval L l g e = Ok v -> means L env e v.
Proof.
  intros env l g H. induction e as [n|s|o args IH] using expr_ind2; intros v E.
  - constructor. apply H. exact E.
  - injection E as <-. constructor.
  - cbn [eval] in E. destruct (mapO (eval L l g) args) as [vs|] eqn:M; [|discriminate]. cbn [obind] in E.
    econstructor; [|exact E]. clear E. revert vs M. induction IH as [|x r Hx _ IHr]; intros vs M.
    + injection M as <-. constructor.
    + cbn [mapO] in M. destruct (eval L l g x) as [v1|] eqn:E1; [|discriminate]. cbn [obind] in M.
      destruct (mapO (eval L l g) r) as [vs1|]; [|discriminate]. injection M as <-. constructor; [apply Hx; reflexivity|].
      apply IHr. reflexivity.
Qed.
(** only the names in an expression matter *)
Lemma eval_names : forall l g l' g' e, (forall n, In n (names_in e) -> lookup L n l g = lookup L n l' g') ->
  eval L l g e = eval L l' g' e.
Proof.
  intros l g l' g'. induction e as [n|s|o args IH] using expr_ind2; intro H; cbn [eval].
  - apply H. left; reflexivity.
  - reflexivity.
  - assert (M : mapO (eval L l g) args = mapO (eval L l' g') args); [|rewrite M; reflexivity].
    cbn [names_in] in H. induction IH as [|x r Hx _ IHr]; cbn [mapO]; [reflexivity|].
    rewrite Hx by (intros n HN; apply H; cbn; apply in_or_app; left; exact HN).
    rewrite IHr by (intros n HN; apply H; cbn; apply in_or_app; right; exact HN). reflexivity.
Qed.
Lemma eval_bound : forall l g e v n, eval L l g e = Ok v -> In n (names_in e) -> exists v', lookup L n l g = Ok v'.
Proof.
  intros l g. induction e as [x|s|o args IH] using expr_ind2; intros v n E HN.
  - destruct HN as [<-|[]]. exists v. exact E.
  - destruct HN.
  - cbn [eval] in E. destruct (mapO (eval L l g) args) as [vs|] eqn:M; [|discriminate]. clear E.
    cbn [names_in] in HN. revert vs M HN. induction IH as [|x r Hx _ IHr]; intros vs M HN; [destruct HN|].
    cbn [mapO] in M. destruct (eval L l g x) as [v1|] eqn:E1; [|discriminate]. cbn [obind] in M.
    destruct (mapO (eval L l g) r) as [vs1|]; [|discriminate]. cbn in HN. apply in_app_or in HN. destruct HN as [HN|HN].
    + eapply Hx; [reflexivity|exact HN].
    + eapply IHr; [reflexivity|exact HN].
Qed.

(** ** Reading text, without memory and guard *)
Section Pure.
Context (l g : scope V).
Fixpoint every (f : value -> option value) (vs : list value) : option (list value) :=
  match vs with
  | [] => Some []
  | v :: r => match f v with Some w => match every f r with Some ws => Some (w :: ws) | None => None end | None => None end
  end.
Fixpoint pure (n : nat) (v : value) : option value :=
  match n with
  | O => None
  | S n =>
      match v with
      | VObj _ | VText _ => Some v
      | VRef r s =>
          match compile L s with
          | Ok e => match eval L l g e with
                    | Ok v1 => match type_check L v1 with Ok v2 => pure n v2 | Raise _ => None end
                    | Raise _ => None
                    end
          | Raise _ => None
          end
      | VAlias a args =>
          match every (pure n) args with
          | Some args' => if existsb has_ref args then match copy_with L a args' with Ok w => Some w | Raise _ => None end
                          else Some v
          | None => None
          end
      end
  end.
Lemma every_mono : forall (f f' : value -> option value) vs ws, (forall v w, f v = Some w -> f' v = Some w) ->
  every f vs = Some ws -> every f' vs = Some ws.
Proof.
  intros f f' vs ws H. revert ws. induction vs as [|v r IH]; intros ws E; cbn in *; [exact E|].
  destruct (f v) as [w|] eqn:E1; [|discriminate]. rewrite (H _ _ E1).
  destruct (every f r) as [ws1|]; [|discriminate]. rewrite (IH _ eq_refl). exact E.
Qed.
Lemma pure_mono : forall n v w, pure n v = Some w -> pure (S n) v = Some w.
Proof.
  induction n as [|n IH]; intros v w E; [discriminate|]. remember (S n) as k eqn:K. cbn [pure]. subst k. cbn [pure] in E.
  destruct v as [x|s|r s|a args]; try exact E.
  - destruct (compile L s) as [e|]; [|discriminate]. destruct (eval L l g e) as [v1|]; [|discriminate].
    destruct (type_check L v1) as [v2|]; [|discriminate]. apply IH. exact E.
  - destruct (every (pure n) args) as [args'|] eqn:A; [|discriminate].
    rewrite (every_mono _ _ _ _ IH A). exact E.
Qed.
Lemma pure_le : forall n m v w, n <= m -> pure n v = Some w -> pure m v = Some w.
Proof. intros n m v w H E. induction H; [exact E|]. apply pure_mono. assumption. Qed.

Lemma settled_pure : forall v, settled v -> exists n, pure n v = Some v.
Proof.
  induction v as [v|s|r s|a args IH] using value_ind2; intro H; try (exists 1; reflexivity); [destruct H|].
  assert (E : exists n, every (pure n) args = Some args).
  { cbn in H. induction IH as [|x r Hx _ IHr]; [exists 0; reflexivity|]. cbn in H. destruct H as [H1 H2].
    destruct (Hx H1) as [n1 E1]. destruct (IHr H2) as [n2 E2]. exists (n1 + n2). cbn [every].
    rewrite (pure_le n1 _ _ _ (Nat.le_add_r _ _) E1).
    rewrite (every_mono (pure n2) (pure (n1 + n2)) _ _ (fun v w => pure_le n2 _ v w (Nat.le_add_l _ _)) E2). reflexivity. }
  destruct E as [n E]. exists (S n). cbn [pure]. rewrite E. cbn in H. apply settled_args in H. rewrite H. reflexivity.
Qed.

Context (env : string -> option value) (HE : forall n v, env n = Some v -> lookup L n l g = Ok v).
Lemma resolves_pure : forall v w, resolves L env v w -> exists n, pure n v = Some w.
Proof.
  fix IH 3. intros v w D. destruct D as [v H|r s e v w C M T N D|r s e s' w C M D|a args args' w H A C].
  - apply settled_pure. exact H.
  - destruct (IH _ _ D) as [n E]. exists (S n). cbn [pure]. rewrite C, (means_eval env l g HE _ _ M).
    unfold type_check. rewrite T. destruct v as [x|s1|r1 s1|a1 args1]; try exact E. destruct (N s1). reflexivity.
  - destruct (IH _ _ D) as [n E]. exists (S n). cbn [pure]. rewrite C, (means_eval env l g HE _ _ M). exact E.
  - assert (E : exists n, every (pure n) args = Some args').
    { clear H C. revert args args' A. fix IHA 3. intros args args' A. destruct A as [|v1 w1 vs ws D1 A].
      - exists 0. reflexivity.
      - destruct (IH _ _ D1) as [n1 E1]. destruct (IHA _ _ A) as [n2 E2]. exists (n1 + n2). cbn [every].
        rewrite (pure_le n1 _ _ _ (Nat.le_add_r _ _) E1).
        rewrite (every_mono (pure n2) (pure (n1 + n2)) _ _ (fun v w => pure_le n2 _ v w (Nat.le_add_l _ _)) E2). reflexivity. }
    destruct E as [n E]. exists (S n). cbn [pure]. rewrite E.
    destruct (existsb has_ref args) eqn:R; [rewrite C; reflexivity|]. destruct H. cbn. apply settled_args. exact R.
Qed.

(** the guard stops nothing whose meaning is finite, and what is remembered does not matter *)
Lemma pure_runs : forall n fuel guard v w m, n <= fuel -> pure n v = Some w ->
  (forall s, In s guard -> pure n (VRef None s) = None) ->
  exists m', eval_type L fuel (Some l) g guard v m = (Ok w, m').
Proof.
  induction n as [|n IH]; intros fuel guard v w m HF E HG; [discriminate|].
  destruct fuel as [|fuel]; [lia|]. destruct v as [x|s|r s|a args]; try (injection E as <-; exists m; reflexivity).
  - destruct (pure n (VRef None s)) as [w'|] eqn:E0.
    + assert (pure n (VRef r s) = Some w') by (destruct n; [discriminate|]; exact E0).
      assert (w' = w) by (pose proof (pure_mono _ _ _ H) as E1; rewrite E in E1; congruence). subst w'.
      apply (IH (S fuel) guard (VRef r s) w m); [lia|assumption|].
      intros s' HI. destruct (pure n (VRef None s')) eqn:EE; [|reflexivity].
      apply pure_mono in EE. rewrite (HG s' HI) in EE. discriminate.
    + cbn [eval_type]. destruct (smem s guard) eqn:SG.
      { apply smem_In in SG. specialize (HG s SG). cbn [pure] in HG, E. congruence. }
      cbn [pure] in E.
      destruct (compile L s) as [e|] eqn:EC; [|discriminate]. destruct (eval L l g e) as [v1|] eqn:EV; [|discriminate].
      destruct (type_check L v1) as [v2|] eqn:ET; [|discriminate].
      destruct (IH fuel (s :: guard) v2 w m) as [m' R]; [lia|exact E| |].
      { intros s' [<-|HI]; [exact E0|]. destruct (pure n (VRef None s')) eqn:EE; [|reflexivity].
        apply pure_mono in EE. rewrite (HG s' HI) in EE. discriminate. }
      exists (remember r w m').
      destruct (match r with Some i => m i | None => None end); unfold bind, lift; rewrite EV, ET, R; reflexivity.
  - cbn [pure] in E. cbn [eval_type]. destruct (every (pure n) args) as [args'|] eqn:A; [|discriminate].
    assert (HG' : forall s, In s guard -> pure n (VRef None s) = None).
    { intros s' HI. destruct (pure n (VRef None s')) eqn:EE; [|reflexivity].
      apply pure_mono in EE. rewrite (HG s' HI) in EE. discriminate. }
    assert (MM : forall m, exists m', mapM (eval_type L fuel (Some l) g guard) args m = (Ok args', m')).
    { clear E. revert args' A. induction args as [|x r IHr]; intros args' A m0; cbn [every] in A.
      - injection A as <-. exists m0. reflexivity.
      - destruct (pure n x) as [y|] eqn:EX; [|discriminate]. destruct (every (pure n) r) as [ys|]; [|discriminate].
        injection A as <-. destruct (IH fuel guard x y m0) as [m1 R1]; [lia|exact EX|exact HG'|].
        destruct (IHr ys eq_refl m1) as [m2 R2]. exists m2. cbn [mapM]. unfold bind. rewrite R1, R2. reflexivity. }
    destruct (MM m) as [m' R]. exists m'. unfold bind. rewrite R. destruct (existsb has_ref args).
    + destruct (copy_with L a args') as [w'|]; [|discriminate]. injection E as <-. reflexivity.
    + injection E as <-. reflexivity.
Qed.
End Pure.

Lemma annotation_runs : forall c g v w, annotation_means L (bound L c g) v w ->
  exists n, forall fuel m, n <= fuel -> exists m', eval_type L fuel (Some (own_scope c)) g [] (as_hint v) m = (Ok w, m').
Proof.
  intros c g v w H.
  assert (HE : forall n v, bound L c g n = Some v -> lookup L n (own_scope c) g = Ok v).
  { intros n v0 E. rewrite lookup_own, E. reflexivity. }
  assert (H' : resolves L (bound L c g) (as_hint v) w) by (destruct v; exact H).
  destruct (resolves_pure _ _ _ HE _ _ H') as [n E]. exists n. intros fuel m HF.
  eapply pure_runs; [exact HF|exact E|]. intros s [].
Qed.

(** ** Going through the classes *)
Lemma hints_run : forall c g anns ws,
  Forall2 (fun kv kw => fst kv = fst kw /\ annotation_means L (bound L c g) (snd kv) (snd kw)) anns ws ->
  exists n, forall fuel acc m, n <= fuel -> exists m', hints_of L fuel (Some (own_scope c)) g anns acc m = (Ok (dupdate acc ws), m').
Proof.
  intros c g anns ws F. induction F as [|[k v] [k' w] anns ws [HK H] F IH].
  - exists 0. intros. exists m. reflexivity.
  - cbn in HK, H. subst k'. destruct (annotation_runs _ _ _ _ H) as [n1 R1]. destruct IH as [n2 R2]. exists (n1 + n2).
    intros fuel acc m HF. destruct (R1 fuel m) as [m1 E1]; [lia|]. destruct (R2 fuel (dset k w acc) m1) as [m2 E2]; [lia|].
    exists m2. cbn [hints_of]. unfold bind. rewrite E1, E2. reflexivity.
Qed.

(** [ds]: the annotations of the classes of the list mean [ds] *)
Lemma along_runs : forall c modules cs ds,
  Forall2 (fun b d => all_mean L c b (modules (k_module b)) d) cs ds ->
  exists n, forall fuel acc m, n <= fuel ->
  exists m', hints_along L fuel (Some (own_scope c)) modules cs acc m = (Ok (fold_left dupdate ds acc), m').
Proof.
  intros c modules cs ds F. induction F as [|b d cs ds H F IH].
  - exists 0. intros. exists m. reflexivity.
  - destruct (hints_run _ _ _ _ H) as [n1 R1]. destruct IH as [n2 R2]. exists (n1 + n2).
    intros fuel acc m HF. destruct (R1 fuel acc m) as [m1 E1]; [lia|]. destruct (R2 fuel (dupdate acc d) m1) as [m2 E2]; [lia|].
    exists m2. cbn [hints_along fold_left]. unfold bind. rewrite E1, E2. reflexivity.
Qed.

(** ** Keys *)
Lemma firsts_app : forall l m, firsts (l ++ m) = firsts l ++ filter (fun k => negb (smem k l)) (firsts m).
Proof.
  induction l as [|x l IH]; intro m; cbn [app firsts].
  - cbn. induction (firsts m) as [|y r IHr]; cbn; [reflexivity|]. f_equal. exact IHr.
  - rewrite IH, filter_app. cbn [app]. f_equal. f_equal. clear IH. induction (firsts m) as [|y r IHr]; cbn [filter]; [reflexivity|].
    cbn [smem existsb]. unfold smem in IHr |- *. rewrite String.eqb_sym. destruct (existsb (String.eqb y) l) eqn:E.
    + cbn [negb]. rewrite IHr. destruct (String.eqb x y); reflexivity.
    + cbn [negb filter]. rewrite IHr. destruct (String.eqb x y); reflexivity.
Qed.
Lemma firsts_nodup : forall l, NoDup l -> firsts l = l.
Proof.
  intros l H. induction H as [|x l N H IH]; cbn; [reflexivity|]. rewrite IH. f_equal.
  clear IH H. induction l as [|y r IHr]; cbn; [reflexivity|].
  destruct (String.eqb_spec x y) as [->|]; [destruct N; left; reflexivity|]. cbn. f_equal. apply IHr. intro HI. apply N. right. exact HI.
Qed.
Lemma keys_dupdate {A} : forall (e d : dict A) l, keys d = firsts l -> keys (dupdate d e) = firsts (l ++ keys e).
Proof.
  induction e as [|[k v] e IH]; intros d l H; cbn [keys map fst].
  - rewrite app_nil_r. exact H.
  - change (dupdate d ((k, v) :: e)) with (dupdate (dset k v d) e).
    rewrite (IH (dset k v d) (l ++ [k])); [rewrite <- app_assoc; reflexivity|].
    rewrite keys_dset, firsts_app. cbn [firsts filter].
    destruct (dmem k d) eqn:M; destruct (smem k l) eqn:S; cbn [negb].
    + rewrite app_nil_r. exact H.
    + apply dmem_In in M. rewrite H in M. apply (proj1 (firsts_In _ _)) in M. apply smem_In in M. congruence.
    + apply smem_In in S. apply (proj2 (firsts_In _ _)) in S. rewrite <- H in S. apply dmem_In in S. congruence.
    + rewrite H. reflexivity.
Qed.
Lemma keys_merged {A} : forall (ds : list (dict A)) (acc : dict A) l, keys acc = firsts l ->
  keys (fold_left dupdate ds acc) = firsts (l ++ flat_map keys ds).
Proof.
  induction ds as [|d ds IH]; intros acc l H; cbn [fold_left flat_map].
  - rewrite app_nil_r. exact H.
  - rewrite (IH _ (l ++ keys d)); [rewrite app_assoc; reflexivity|]. apply keys_dupdate. exact H.
Qed.
Lemma merged_ok {A} : forall (ds : list (dict A)) (acc : dict A), dict_ok acc -> dict_ok (fold_left dupdate ds acc).
Proof. induction ds as [|d ds IH]; intros acc H; cbn; [exact H|]. apply IH. apply dict_ok_dupdate. exact H. Qed.

Lemma keys_filter {A} : forall (p : string -> bool) (d : dict A), keys (filter (fun kv => p (fst kv)) d) = filter p (keys d).
Proof. intros p d. induction d as [|[k v] r IH]; cbn; [reflexivity|]. destruct (p k); cbn; [f_equal|]; exact IH. Qed.
Lemma dget_filter {A} : forall (p : string -> bool) (d : dict A) k, dget k (filter (fun kv => p (fst kv)) d) = if p k then dget k d else None.
Proof.
  intros p d k. induction d as [|[k' v] r IH]; cbn; [destruct (p k); reflexivity|].
  destruct (p k') eqn:E; cbn; destruct (String.eqb_spec k k') as [->|]; rewrite ?E; try exact IH; try reflexivity.
  rewrite IH, E. reflexivity.
Qed.
End Names.

(** the names in order, with their values: what own_hints does *)
Definition in_order {A} (inherited : list string) (own : dict A) : dict A :=
  flat_map (fun k => match dget k own with Some a => [(k, a)] | None => [] end) (firsts inherited)
  ++ filter (fun ka => negb (smem (fst ka) inherited)) own.
Lemma keys_in_order {A} : forall inherited (own : dict A), keys (in_order inherited own) =
  filter (fun k => dmem k own) (firsts inherited) ++ filter (fun k => negb (smem k inherited)) (keys own).
Proof.
  intros inherited own. unfold in_order. rewrite keys_app. f_equal.
  - induction (firsts inherited) as [|k r IH]; cbn [flat_map filter]; [reflexivity|]. rewrite keys_app, IH. unfold dmem. destruct (dget k own); reflexivity.
  - apply (keys_filter (fun k => negb (smem k inherited))).
Qed.
Lemma dget_in_order {A} : forall inherited (own : dict A) k, dget k (in_order inherited own) = dget k own.
Proof.
  intros inherited own k. unfold in_order. rewrite dget_app.
  rewrite (dget_filter (fun k => negb (smem k inherited))).
  assert (G : forall l, dget k (flat_map (fun k => match dget k own with Some a => [(k, a)] | None => [] end) l) =
    if smem k l then dget k own else None).
  { induction l as [|x r IH]; cbn; [reflexivity|]. rewrite dget_app, IH. destruct (String.eqb_spec k x) as [<-|N]; cbn [orb].
    - destruct (dget k own) eqn:E; cbn; [rewrite String.eqb_refl; reflexivity|]. destruct (smem k r); reflexivity.
    - destruct (dget x own); cbn; [|reflexivity]. destruct (String.eqb_spec k x); [contradiction|reflexivity]. }
  rewrite G. destruct (smem k (firsts inherited)) eqn:S.
  - apply smem_In in S. apply (proj1 (firsts_In _ _)) in S. apply smem_In in S. rewrite S. cbn. destruct (dget k own); reflexivity.
  - destruct (smem k inherited) eqn:S1; [|reflexivity]. apply smem_In in S1. apply (proj2 (firsts_In _ _)) in S1. apply smem_In in S1. congruence.
Qed.

(** the hints of the classes, of which those of the class itself are kept *)
Lemma kept {A B} : forall (anns : dict B) (own : dict A) others inherited,
  dict_ok anns -> keys own = keys anns -> flat_map keys others = inherited ->
  filter (fun kv => dmem (fst kv) anns) (fold_left dupdate (others ++ [own]) []) = in_order inherited own.
Proof.
  intros anns own others inherited HO KE KR. rewrite fold_left_app. cbn [fold_left].
  assert (OO : dict_ok own) by (unfold dict_ok; rewrite KE; exact HO).
  set (merged := fold_left dupdate others []).
  assert (KM : keys merged = firsts inherited).
  { unfold merged. rewrite (keys_merged _ [] []); [cbn [app]; rewrite KR; reflexivity|reflexivity]. }
  assert (OM : dict_ok merged) by (apply merged_ok; constructor).
  assert (PK : forall k, dmem k anns = dmem k own).
  { intro k. destruct (dmem k anns) eqn:E1, (dmem k own) eqn:E2; try reflexivity.
    - apply dmem_In in E1. rewrite <- KE in E1. apply dmem_In in E1. congruence.
    - apply dmem_In in E2. rewrite KE in E2. apply dmem_In in E2. congruence. }
  apply dict_eq_ext.
  - unfold dict_ok. rewrite (keys_filter (fun k => dmem k anns)). apply NoDup_filter. apply dict_ok_dupdate. exact OM.
  - rewrite (keys_filter (fun k => dmem k anns)), keys_in_order.
    rewrite (keys_dupdate own merged inherited KM), firsts_app, filter_app, (firsts_nodup (keys own) OO).
    f_equal; [apply filter_ext; exact PK|].
    assert (IK : forall k, In k (keys own) -> dmem k anns = true) by (intros k HI; rewrite PK; apply dmem_In; exact HI).
    revert IK. clear KE. induction (keys own) as [|k r IH]; intro IK; cbn; [reflexivity|].
    destruct (smem k inherited); cbn; [apply IH; intros; apply IK; right; assumption|].
    rewrite IK by (left; reflexivity). f_equal. apply IH; intros; apply IK; right; assumption.
  - intro k. rewrite (dget_filter (fun k => dmem k anns)), dget_in_order, dget_dupdate by exact OO. rewrite PK.
    unfold dmem. destruct (dget k own); reflexivity.
Qed.

Section Class.
Context {V op : Type} (L : Lang V op).
Lemma mean_keys : forall (c b : pyclass V) g own, all_mean L c b g own -> keys own = keys (k_anns b).
Proof.
  intros c b g own HC. unfold all_mean in HC. induction HC as [|[k v] [k' w] x y [HK _] _ IH]; cbn; [reflexivity|].
  cbn in HK. f_equal; [symmetry; exact HK|exact IH].
Qed.
Lemma meaning : forall modules (c : pyclass V) rest own others,
  dict_ok (k_anns c) -> all_mean L c c (modules (k_module c)) own ->
  Forall2 (fun b ws => all_mean L c b (modules (k_module b)) ws) rest others ->
  exists n, forall fuel m, n <= fuel -> exists m',
  class_hints L fuel modules c rest m = (Ok (in_order (annotated rest) own), m').
Proof.
  intros modules c rest own others HO HC HR.
  assert (F : Forall2 (fun b d => all_mean L c b (modules (k_module b)) d) (rev (c :: rest)) (rev others ++ [own])).
  { cbn [rev]. apply Forall2_app; [|constructor; [exact HC|constructor]].
    clear - HR. induction HR; cbn; [constructor|]. apply Forall2_app; [assumption|]. constructor; [assumption|constructor]. }
  destruct (along_runs L _ _ _ _ F) as [n R]. exists n. intros fuel m HF. destruct (R fuel [] m HF) as [m' E]. exists m'.
  unfold class_hints, get_type_hints, bind. rewrite E. cbv beta iota. unfold ret. f_equal. f_equal.
  apply kept; [exact HO|eapply mean_keys; exact HC|].
  unfold annotated. assert (G : flat_map (@keys (value V)) (rev others) = flat_map (fun b => keys (k_anns b)) (rev rest)); [|exact G].
  clear - HR. induction HR as [|b d cs ds H F IH]; cbn [rev]; [reflexivity|]. rewrite !flat_map_app, IH. cbn [flat_map]. rewrite !app_nil_r. f_equal.
  eapply mean_keys. exact H.
Qed.

(** a name that is not bound makes the class statement fail *)
Lemma unknown : forall fuel modules (c : pyclass V) rest m b k s e n,
  In b (c :: rest) -> In (k, VText s) (k_anns b) -> compile L s = Ok e -> In n (names_in e) ->
  bound L c (modules (k_module b)) n = None ->
  exists x m', class_hints L fuel modules c rest m = (Raise x, m').
Proof.
  intros fuel modules c rest m b k s e n HB HA HC HN HU.
  assert (E : forall m, exists x m', eval_type L fuel (Some (own_scope c)) (modules (k_module b)) [] (VRef None s) m = (Raise x, m')).
  { intro m0. destruct fuel as [|fuel]; [eexists; eexists; reflexivity|]. cbn [eval_type smem existsb]. unfold bind, lift. rewrite HC.
    destruct (eval L (own_scope c) (modules (k_module b)) e) as [v|x] eqn:EV; [|eexists; eexists; reflexivity].
    destruct (eval_bound L _ _ _ _ _ EV HN) as [v' E]. rewrite lookup_own, HU in E. discriminate. }
  assert (H : forall anns, In (k, VText s) anns -> forall acc m, exists x m',
    hints_of L fuel (Some (own_scope c)) (modules (k_module b)) anns acc m = (Raise x, m')).
  { induction anns as [|[k' v'] r IH]; intros HI acc m0; [destruct HI|]. cbn [hints_of]. unfold bind. destruct HI as [HI|HI].
    - injection HI as -> ->. destruct (E m0) as (x & m1 & E1). cbn [as_hint]. rewrite E1. eexists; eexists; reflexivity.
    - destruct (eval_type L fuel (Some (own_scope c)) (modules (k_module b)) [] (as_hint v') m0) as [[w|x] m1]; [apply IH; exact HI|].
      eexists; eexists; reflexivity. }
  assert (A : forall cs, In b cs -> forall acc m, exists x m',
    hints_along L fuel (Some (own_scope c)) modules cs acc m = (Raise x, m')).
  { induction cs as [|b' r IH]; intros HI acc m0; [destruct HI|]. cbn [hints_along]. unfold bind. destruct HI as [->|HI].
    - destruct (H _ HA acc m0) as (x & m1 & E1). rewrite E1. eexists; eexists; reflexivity.
    - destruct (hints_of L fuel (Some (own_scope c)) (modules (k_module b')) (k_anns b') acc m0) as [[w|x] m1]; [apply IH; exact HI|].
      eexists; eexists; reflexivity. }
  unfold class_hints, get_type_hints, bind.
  destruct (A (rev (c :: rest)) (proj1 (in_rev _ _) HB) [] m) as (x & m1 & E1). rewrite E1. eexists; eexists; reflexivity.
Qed.

(** ** What is remembered does not matter *)
Lemma eval_type_history : forall fuel l g guard v m1 m2,
  fst (eval_type L fuel (Some l) g guard v m1) = fst (eval_type L fuel (Some l) g guard v m2).
Proof.
  induction fuel as [|fuel IH]; intros l g guard v m1 m2; [reflexivity|]. destruct v as [x|s|r s|a args]; try reflexivity.
  - cbn [eval_type]. destruct (smem s guard); [reflexivity|].
    assert (G : forall m, fst ((let* e := lift (compile L s) in let* v1 := lift (eval L l g e) in let* v2 := lift (type_check L v1) in
      let* v3 := eval_type L fuel (Some l) g (s :: guard) v2 in (fun m => (Ok v3, remember r v3 m))) m) =
      match compile L s with
      | Ok e => match eval L l g e with
                | Ok v1 => match type_check L v1 with Ok v2 => fst (eval_type L fuel (Some l) g (s :: guard) v2 m1) | Raise x => Raise x end
                | Raise x => Raise x end
      | Raise x => Raise x end).
    { intro m. unfold bind, lift. destruct (compile L s) as [e|]; [|reflexivity]. destruct (eval L l g e) as [v1|]; [|reflexivity].
      destruct (type_check L v1) as [v2|]; [|reflexivity]. rewrite (IH l g (s :: guard) v2 m1 m).
      destruct (eval_type L fuel (Some l) g (s :: guard) v2 m) as [[w|x] m']; reflexivity. }
    destruct (match r with Some i => m1 i | None => None end), (match r with Some i => m2 i | None => None end); rewrite !G; reflexivity.
  - cbn [eval_type]. assert (MM : forall m1 m2, fst (mapM (eval_type L fuel (Some l) g guard) args m1) = fst (mapM (eval_type L fuel (Some l) g guard) args m2)).
    { clear m1 m2. induction args as [|x r IHr]; intros m1 m2; [reflexivity|]. cbn [mapM]. unfold bind.
      specialize (IH l g guard x m1 m2). destruct (eval_type L fuel (Some l) g guard x m1) as [[w|e] m1'], (eval_type L fuel (Some l) g guard x m2) as [[w'|e'] m2'];
        cbn [fst] in IH; try discriminate; injection IH as <-; [|reflexivity].
      specialize (IHr m1' m2'). destruct (mapM (eval_type L fuel (Some l) g guard) r m1') as [[ws|e] m3], (mapM (eval_type L fuel (Some l) g guard) r m2') as [[ws'|e'] m4];
        cbn [fst] in IHr; try discriminate; injection IHr as <-; reflexivity. }
    specialize (MM m1 m2). unfold bind.
    destruct (mapM (eval_type L fuel (Some l) g guard) args m1) as [[ws|e] m3], (mapM (eval_type L fuel (Some l) g guard) args m2) as [[ws'|e'] m4];
      cbn [fst] in MM; try discriminate; injection MM as <-; [|reflexivity]. destruct (existsb has_ref args); reflexivity.
Qed.
Lemma hints_history : forall fuel l g anns acc m1 m2,
  fst (hints_of L fuel (Some l) g anns acc m1) = fst (hints_of L fuel (Some l) g anns acc m2).
Proof.
  intros fuel l g anns. induction anns as [|[k v] r IH]; intros acc m1 m2; [reflexivity|]. cbn [hints_of]. unfold bind.
  pose proof (eval_type_history fuel l g [] (as_hint v) m1 m2) as E.
  destruct (eval_type L fuel (Some l) g [] (as_hint v) m1) as [[w|e] m1'], (eval_type L fuel (Some l) g [] (as_hint v) m2) as [[w'|e'] m2'];
    cbn [fst] in E; try discriminate; injection E as <-; [apply IH|reflexivity].
Qed.
Lemma along_history : forall fuel l modules cs acc m1 m2,
  fst (hints_along L fuel (Some l) modules cs acc m1) = fst (hints_along L fuel (Some l) modules cs acc m2).
Proof.
  intros fuel l modules cs. induction cs as [|c r IH]; intros acc m1 m2; [reflexivity|]. cbn [hints_along]. unfold bind.
  pose proof (hints_history fuel l (modules (k_module c)) (k_anns c) acc m1 m2) as E.
  destruct (hints_of L fuel (Some l) (modules (k_module c)) (k_anns c) acc m1) as [[w|e] m1'],
    (hints_of L fuel (Some l) (modules (k_module c)) (k_anns c) acc m2) as [[w'|e'] m2'];
    cbn [fst] in E; try discriminate; injection E as <-; [apply IH|reflexivity].
Qed.
Lemma class_history : forall fuel modules c rest m1 m2,
  fst (class_hints L fuel modules c rest m1) = fst (class_hints L fuel modules c rest m2).
Proof.
  intros fuel modules c rest m1 m2. unfold class_hints, get_type_hints, bind.
  pose proof (along_history fuel (own_scope c) modules (rev (c :: rest)) [] m1 m2) as E.
  destruct (hints_along L fuel (Some (own_scope c)) modules (rev (c :: rest)) [] m1) as [[w|e] m1'],
    (hints_along L fuel (Some (own_scope c)) modules (rev (c :: rest)) [] m2) as [[w'|e'] m2'];
    cbn [fst] in E; try discriminate; injection E as <-; reflexivity.
Qed.
(** ** Every class by itself *)
Definition blank : memory V := fun _ => None.
Definition valued (fuel : nat) (l g : scope V) (anns : dict (value V)) : outcome (dict (value V)) :=
  mapO (fun kv => do w <- fst (eval_type L fuel (Some l) g [] (as_hint (snd kv)) blank); Ok (fst kv, w)) anns.
Lemma hints_valued : forall fuel l g anns acc m,
  fst (hints_of L fuel (Some l) g anns acc m) = do ws <- valued fuel l g anns; Ok (dupdate acc ws).
Proof.
  intros fuel l g anns. induction anns as [|[k v] r IH]; intros acc m; [reflexivity|].
  unfold valued in *. cbn [hints_of mapO fst snd]. unfold bind.
  pose proof (eval_type_history fuel l g [] (as_hint v) m blank) as E.
  destruct (eval_type L fuel (Some l) g [] (as_hint v) m) as [[w|e] m1]; cbn [fst] in E; rewrite <- E; cbn [obind]; [|reflexivity].
  rewrite IH. destruct (mapO _ r); reflexivity.
Qed.
Lemma along_valued : forall fuel l modules cs acc m,
  fst (hints_along L fuel (Some l) modules cs acc m) =
  do ds <- mapO (fun b => valued fuel l (modules (k_module b)) (k_anns b)) cs; Ok (fold_left dupdate ds acc).
Proof.
  intros fuel l modules cs. induction cs as [|b r IH]; intros acc m; [reflexivity|]. cbn [hints_along mapO]. unfold bind.
  pose proof (hints_valued fuel l (modules (k_module b)) (k_anns b) acc m) as E.
  destruct (hints_of L fuel (Some l) (modules (k_module b)) (k_anns b) acc m) as [[w|e] m1]; cbn [fst] in E;
    destruct (valued fuel l (modules (k_module b)) (k_anns b)) as [ws|]; cbn [obind] in *; try discriminate.
  - injection E as ->. rewrite IH. destruct (mapO _ r); reflexivity.
  - cbn [fst]. congruence.
Qed.
Lemma mapO_app {A B} : forall (f : A -> outcome B) l m, mapO f (l ++ m) = do x <- mapO f l; do y <- mapO f m; Ok (x ++ y).
Proof.
  intros f l m. induction l as [|a r IH]; cbn [app mapO]; [cbn [obind]; destruct (mapO f m); reflexivity|].
  destruct (f a); cbn [obind]; [|reflexivity]. rewrite IH. destruct (mapO f r); cbn [obind]; [|reflexivity].
  destruct (mapO f m); reflexivity.
Qed.
Lemma valued_keys : forall fuel l g anns ws, valued fuel l g anns = Ok ws -> keys ws = keys anns.
Proof.
  intros fuel l g anns. unfold valued. induction anns as [|[k v] r IH]; intros ws E; cbn [mapO fst snd] in E.
  - injection E as <-. reflexivity.
  - destruct (fst (eval_type L fuel (Some l) g [] (as_hint v) blank)); cbn [obind] in E; [|discriminate].
    destruct (mapO _ r) as [ws1|]; cbn [obind] in E; [|discriminate]. injection E as <-. cbn. f_equal. apply IH. reflexivity.
Qed.
Lemma class_valued : forall fuel modules (c : pyclass V) rest m, dict_ok (k_anns c) ->
  fst (class_hints L fuel modules c rest m) =
  do ds <- mapO (fun b => valued fuel (own_scope c) (modules (k_module b)) (k_anns b)) (rev rest);
  do own <- valued fuel (own_scope c) (modules (k_module c)) (k_anns c);
  Ok (in_order (annotated rest) own).
Proof.
  intros fuel modules c rest m HO. unfold class_hints, get_type_hints, bind.
  pose proof (along_valued fuel (own_scope c) modules (rev (c :: rest)) [] m) as E.
  assert (G : forall (X : outcome (dict (value V)) * memory V) (k : dict (value V) -> dict (value V)),
    fst (match X with (Ok a, w) => ret (k a) w | (Raise e, w) => (Raise e, w) end) = do h <- fst X; Ok (k h)).
  { intros [[a|e] w] k; reflexivity. }
  rewrite G, E. cbn [rev]. rewrite mapO_app. cbn [mapO].
  destruct (mapO (fun b => valued fuel (own_scope c) (modules (k_module b)) (k_anns b)) (rev rest)) as [ds|] eqn:ED; cbn [obind]; [|reflexivity].
  destruct (valued fuel (own_scope c) (modules (k_module c)) (k_anns c)) as [own|] eqn:EO; cbn [obind]; [|reflexivity].
  f_equal. apply kept; [exact HO|eapply valued_keys; exact EO|].
  unfold annotated. clear - ED. revert ds ED. induction (rev rest) as [|b r IH]; intros ds ED; cbn [mapO] in ED.
  - injection ED as <-. reflexivity.
  - destruct (valued fuel (own_scope c) (modules (k_module b)) (k_anns b)) as [d|] eqn:E1; cbn [obind] in ED; [|discriminate].
    destruct (mapO _ r) as [ds1|]; cbn [obind] in ED; [|discriminate]. injection ED as <-. cbn [flat_map]. f_equal.
    + eapply valued_keys. exact E1.
    + apply IH. reflexivity.
Qed.
(** ** Quoting *)
Lemma quote_means : forall (c : pyclass V) g locals (anns anns' : dict (value V)),
  Forall2 (fun kv kv' => fst kv = fst kv' /\
    (snd kv = snd kv' \/
     exists s e, snd kv' = VText s /\ compile L s = Ok e /\ means L (visible L locals g) e (snd kv) /\
       (is_type L (snd kv) = true \/ exists t, snd kv = VText t) /\
       forall n, In n (names_in e) -> visible L locals g n = bound L c g n)) anns anns' ->
  forall own,
  Forall2 (fun kv kw => fst kv = fst kw /\ annotation_means L (bound L c g) (snd kv) (snd kw)) anns own ->
  Forall2 (fun kv kw => fst kv = fst kw /\ annotation_means L (bound L c g) (snd kv) (snd kw)) anns' own.
Proof.
  intros c g locals anns anns' HQ. induction HQ as [|[k v] [k' v'] a b [HK Q] _ IH]; intros own HC.
  - inversion HC. constructor.
  - inversion HC as [|x [k2 w] y ws [HK2 HM] HF]; subst. cbn [fst snd] in *. subst k' k2. constructor; [|apply IH; exact HF].
    cbn [fst snd]. split; [reflexivity|].
    destruct Q as [<-|(s & e & -> & CP & ME & TY & NM)]; [exact HM|]. cbn [annotation_means].
    assert (ME' : means L (bound L c g) e v).
    { apply (eval_means L (bound L c g) (own_scope c) g).
      - intros n v0 E. rewrite lookup_own in E. destruct (bound L c g n); congruence.
      - rewrite <- (eval_names L locals g (own_scope c) g).
        + apply (means_eval L (visible L locals g)); [|exact ME]. intros n v0 E. rewrite lookup_visible, E. reflexivity.
        + intros n HN. rewrite lookup_visible, lookup_own, (NM n HN). reflexivity. }
    destruct v as [x|t|r t|x args].
    + destruct TY as [TY|[t E]]; [|discriminate]. eapply res_ref; [exact CP|exact ME'|exact TY|congruence|exact HM].
    + eapply res_ref_text; [exact CP|exact ME'|exact HM].
    + destruct TY as [TY|[u E]]; [|discriminate]. eapply res_ref; [exact CP|exact ME'|exact TY|congruence|exact HM].
    + destruct TY as [TY|[t E]]; [|discriminate]. eapply res_ref; [exact CP|exact ME'|exact TY|congruence|exact HM].
Qed.
End Class.

Lemma string_length_app : forall a b, String.length (a ++ b)%string = String.length a + String.length b.
Proof. induction a as [|x r IH]; intro b; cbn; [reflexivity|]. rewrite IH. reflexivity. Qed.
Lemma own_fields_with_hints : forall {obj ty W} (P : Py obj ty W) d anns l, own_fields P (with_hints d anns) l = own_fields P d l.
Proof. intros obj ty W P d anns l. induction l as [|[k a] r IH]; cbn; [reflexivity|]. rewrite IH. reflexivity. Qed.
Lemma filter_all {A} : forall l : list A, filter (fun _ => true) l = l.
Proof. induction l; cbn; [reflexivity|]. f_equal. assumption. Qed.
Lemma in_order_nil {A} : forall d : dict A, in_order [] d = d.
Proof. intro d. unfold in_order. cbn [firsts flat_map app smem existsb negb]. apply filter_all. Qed.
Lemma in_order_own : forall {obj ty W} (anns : dict (@ann obj ty W)) inh, own_hints anns inh = in_order inh anns.
Proof. reflexivity. Qed.
Lemma in_order_map {A B} : forall (f : A -> B) inh own,
  in_order inh (map (fun kv => (fst kv, f (snd kv))) own) = map (fun kv => (fst kv, f (snd kv))) (in_order inh own).
Proof.
  intros f inh own. unfold in_order. rewrite map_app. f_equal.
  - assert (G : forall k, dget k (map (fun kv => (fst kv, f (snd kv))) own) = match dget k own with Some a => Some (f a) | None => None end).
    { intro k. induction own as [|[k' v] r IH]; cbn; [reflexivity|]. destruct (String.eqb k k'); [reflexivity|exact IH]. }
    induction (firsts inh) as [|k r IH]; cbn [flat_map]; [reflexivity|]. rewrite map_app, IH, G. destruct (dget k own); reflexivity.
  - induction own as [|[k v] r IH]; cbn; [reflexivity|]. destruct (smem k inh); cbn; [|f_equal]; exact IH.
Qed.

Lemma settled_resolves : forall {V op} (L : Lang V op) env v w, settled v -> resolves L env v w -> w = v.
Proof.
  intros V op L env v w S D. destruct D as [v H|r s e v w C M T N D|r s e s' w C M D|a args args' w H A C].
  - reflexivity.
  - destruct S.
  - destruct S.
  - contradiction.
Qed.

Lemma c120_meaning_proof : forall {V op} (L : Lang V op) modules (c : pyclass V) rest own others,
  dict_ok (k_anns c) ->
  all_mean L c c (modules (k_module c)) own ->
  Forall2 (fun b ws => all_mean L c b (modules (k_module b)) ws) rest others ->
  exists n, forall fuel m, n <= fuel -> exists hints m',
    class_hints L fuel modules c rest m = (Ok hints, m') /\
    keys hints = filter (fun k => smem k (keys own)) (rev (nodup string_dec (rev (annotated rest)))) ++
                 filter (fun k => negb (smem k (annotated rest))) (keys own) /\
    forall k, dget k hints = dget k own.
Proof.
  intros V op L modules c rest own others HO HC HR. destruct (meaning L modules c rest own others HO HC HR) as [n R].
  exists n. intros fuel m HF. destruct (R fuel m HF) as [m' E]. exists (in_order (annotated rest) own), m'.
  split; [exact E|]. split; [|intro k; apply dget_in_order]. rewrite keys_in_order, firsts_spec. f_equal.
  apply filter_ext. intro k. destruct (dmem k own) eqn:E1, (smem k (keys own)) eqn:E2; try reflexivity.
  - apply dmem_In in E1. apply smem_In in E1. congruence.
  - apply smem_In in E2. apply dmem_In in E2. congruence.
Qed.

Lemma c120_class_proof : forall {V op obj ty W} (L : Lang V op) (P : Py obj ty W) modules (c : pyclass V) rest own others read d,
  dict_ok (k_anns c) ->
  all_mean L c c (modules (k_module c)) own ->
  Forall2 (fun b ws => all_mean L c b (modules (k_module b)) ws) rest others ->
  d_anns d = map (fun kv => (fst kv, read (snd kv))) own ->
  d_inherited_anns d = annotated rest ->
  exists n, forall fuel m, n <= fuel -> exists m',
    create_named L P fuel modules c rest read d m = (make_class P d, m').
Proof.
  intros V op obj ty W L P modules c rest own others read d HO HC HR HA HI.
  destruct (meaning L modules c rest own others HO HC HR) as [n R].
  exists n. intros fuel m HF. destruct (R fuel m HF) as [m' E]. exists m'. unfold create_named, bind. rewrite E.
  unfold lift. f_equal. unfold make_class. cbn [with_hints d_anns d_inherited_anns d_bases d_unary d_prebind d_ty d_style d_frozen d_ordered d_parsers d_post_new].
  rewrite own_fields_with_hints.
  assert (EH : own_hints (map (fun kv => (fst kv, read (snd kv))) (in_order (annotated rest) own)) [] = own_hints (d_anns d) (d_inherited_anns d)).
  { rewrite !in_order_own, HA, HI, <- in_order_map. apply in_order_nil. }
  rewrite EH. reflexivity.
Qed.

Lemma c120_quoted_partial_proof : forall {V op} (L : Lang V op) modules locals name qualname self md anns anns' rest own others,
  let g := modules md in
  let c := PyClass name qualname self md anns in
  dict_ok anns ->
  all_mean L c c g own ->
  Forall2 (fun b ws => all_mean L c b (modules (k_module b)) ws) rest others ->
  Forall2 (fun kv kv' => fst kv = fst kv' /\
    (snd kv = snd kv' \/
     exists s e, snd kv' = VText s /\ compile L s = Ok e /\ means L (visible L locals g) e (snd kv) /\
       (is_type L (snd kv) = true \/ exists t, snd kv = VText t) /\
       forall n, In n (names_in e) -> visible L locals g n = bound L c g n)) anns anns' ->
  exists n, forall fuel m, n <= fuel -> exists hints m1 m2,
    class_hints L fuel modules c rest m = (Ok hints, m1) /\
    class_hints L fuel modules (PyClass name qualname self md anns') rest m = (Ok hints, m2).
Proof.
  intros V op L modules locals name qualname self md anns anns' rest own others g c HO HC HR HQ.
  destruct (meaning L modules c rest own others HO HC HR) as [n1 R1].
  set (c' := PyClass name qualname self md anns').
  assert (HC' : all_mean L c' c' g own) by exact (quote_means L c g locals anns anns' HQ own HC).
  assert (HO' : dict_ok (k_anns c')).
  { unfold dict_ok. rewrite <- (mean_keys L _ _ _ _ HC'), (mean_keys L _ _ _ _ HC). exact HO. }
  destruct (meaning L modules c' rest own others HO' HC' HR) as [n2 R2].
  exists (n1 + n2). intros fuel m HF. destruct (R1 fuel m) as [m1 E1]; [lia|]. destruct (R2 fuel m) as [m2 E2]; [lia|].
  exists (in_order (annotated rest) own), m1, m2. split; assumption.
Qed.

Lemma c120_unknown_name_proof : forall {V op} (L : Lang V op) fuel modules (c : pyclass V) rest m k s e n,
  In (k, VText s) (k_anns c) -> compile L s = Ok e -> In n (names_in e) ->
  bound L c (modules (k_module c)) n = None ->
  exists x m', class_hints L fuel modules c rest m = (Raise x, m').
Proof.
  intros V op L fuel modules c rest m k s e n HA HC HN HB. eapply unknown; [left; reflexivity|eassumption..].
Qed.

Lemma c120_local_refuted_proof : forall {V op} (L : Lang V op) modules locals name qualname self md k s n v rest others,
  let g := modules md in
  compile L s = Ok (XName n) ->
  dget n locals = Some v -> settled v -> (forall t, v <> VText t) ->
  n <> name -> n <> qualname -> dget n g = None -> dget n (builtins L) = None ->
  Forall2 (fun b ws => all_mean L (PyClass name qualname self md [(k, v)]) b (modules (k_module b)) ws) rest others ->
  eval L locals g (XName n) = Ok v /\
  exists f, forall fuel m, f <= fuel -> exists hints m1 x m2,
    class_hints L fuel modules (PyClass name qualname self md [(k, v)]) rest m = (Ok hints, m1) /\
    dget k hints = Some v /\
    class_hints L fuel modules (PyClass name qualname self md [(k, VText s)]) rest m = (Raise x, m2).
Proof.
  intros V op L modules locals name qualname self md k s n v rest others g HS HL SV NT N1 N2 NG NB HR. split.
  - cbn. unfold lookup. rewrite HL. reflexivity.
  - destruct (meaning L modules (PyClass name qualname self md [(k, v)]) rest [(k, v)] others) as [f R].
    + unfold dict_ok. cbn. constructor; [intros []|constructor].
    + unfold all_mean. cbn [k_anns]. constructor; [|constructor]. split; [reflexivity|]. cbn [fst snd].
      assert (A : resolves L (bound L (PyClass name qualname self md [(k, v)]) (modules md)) v v) by (constructor; exact SV).
      destruct v as [x|t|r t|x args]; try exact A. destruct (NT t). reflexivity.
    + exact HR.
    + exists f. intros fuel m HF. destruct (R fuel m HF) as [m1 E1].
      destruct (unknown L fuel modules (PyClass name qualname self md [(k, VText s)]) rest m (PyClass name qualname self md [(k, VText s)]) k s (XName n) n) as (x & m2 & E2).
      * left. reflexivity.
      * left. reflexivity.
      * exact HS.
      * left. reflexivity.
      * unfold bound. cbn [k_name k_qualname k_module]. destruct (String.eqb_spec n name); [contradiction|].
        destruct (String.eqb_spec n qualname); [contradiction|]. cbn [orb]. unfold g in NG. rewrite NG. exact NB.
      * exists (in_order (annotated rest) [(k, v)]), m1, x, m2. split; [exact E1|]. split; [|exact E2].
        rewrite dget_in_order. cbn. rewrite String.eqb_refl. reflexivity.
Qed.

Lemma c120_own_name_refuted_proof : forall {V op} (L : Lang V op) modules name qualname self md k s v rest others,
  let g := modules md in
  compile L s = Ok (XName name) ->
  dget name g = Some v -> settled v -> settled self ->
  (forall t, v <> VText t) -> (forall t, self <> VText t) -> is_type L self = true ->
  Forall2 (fun b ws => all_mean L (PyClass name qualname self md []) b (modules (k_module b)) ws) rest others ->
  eval L [] g (XName name) = Ok v /\
  exists f, forall fuel m, f <= fuel -> exists hints m1 hints' m2,
    class_hints L fuel modules (PyClass name qualname self md [(k, v)]) rest m = (Ok hints, m1) /\
    dget k hints = Some v /\
    class_hints L fuel modules (PyClass name qualname self md [(k, VText s)]) rest m = (Ok hints', m2) /\
    dget k hints' = Some self.
Proof.
  intros V op L modules name qualname self md k s v rest others g HS HG SV SS NT NS TS HR. split.
  - cbn. unfold lookup. cbn [dget]. rewrite HG. reflexivity.
  - destruct (meaning L modules (PyClass name qualname self md [(k, v)]) rest [(k, v)] others) as [f R].
    { unfold dict_ok. cbn. constructor; [intros []|constructor]. }
    { unfold all_mean. cbn [k_anns]. constructor; [|constructor]. split; [reflexivity|]. cbn [fst snd].
      assert (A : resolves L (bound L (PyClass name qualname self md [(k, v)]) (modules md)) v v) by (constructor; exact SV).
      destruct v as [x|t|r t|x args]; try exact A. destruct (NT t). reflexivity. }
    { exact HR. }
    destruct (meaning L modules (PyClass name qualname self md [(k, VText s)]) rest [(k, self)] others) as [f' R'].
    { unfold dict_ok. cbn. constructor; [intros []|constructor]. }
    { unfold all_mean. cbn [k_anns]. constructor; [|constructor]. split; [reflexivity|]. cbn [fst snd].
      cbn [annotation_means]. eapply res_ref; [exact HS| |exact TS|exact NS|constructor; exact SS].
      constructor. unfold bound. cbn [k_name k_obj]. rewrite String.eqb_refl. reflexivity. }
    { exact HR. }
    exists (f + f'). intros fuel m HF. destruct (R fuel m) as [m1 E1]; [lia|]. destruct (R' fuel m) as [m2 E2]; [lia|].
    exists (in_order (annotated rest) [(k, v)]), m1, (in_order (annotated rest) [(k, self)]), m2. rewrite !dget_in_order.
    cbn [dget]. rewrite String.eqb_refl. auto.
Qed.

Lemma c121_history_proof : forall {V op obj ty W} (L : Lang V op) (P : Py obj ty W) fuel modules (c : pyclass V) rest read d m1 m2,
  fst (class_hints L fuel modules c rest m1) = fst (class_hints L fuel modules c rest m2) /\
  fst (create_named L P fuel modules c rest read d m1) = fst (create_named L P fuel modules c rest read d m2).
Proof.
  intros V op obj ty W L P fuel modules c rest read d m1 m2. pose proof (class_history L fuel modules c rest m1 m2) as E.
  split; [exact E|]. unfold create_named, bind.
  destruct (class_hints L fuel modules c rest m1) as [[h|e] m1'], (class_hints L fuel modules c rest m2) as [[h'|e'] m2'];
    cbn [fst] in E; try discriminate; injection E as <-; reflexivity.
Qed.

Lemma c122_bases_partial_proof : forall {V op} (L : Lang V op) fuel modules modules' (c : pyclass V) rest rest' m m' hints hints',
  dict_ok (k_anns c) ->
  modules' (k_module c) = modules (k_module c) ->
  map (fun b => keys (k_anns b)) rest' = map (fun b => keys (k_anns b)) rest ->
  fst (class_hints L fuel modules c rest m) = Ok hints ->
  fst (class_hints L fuel modules' c rest' m') = Ok hints' ->
  hints' = hints.
Proof.
  intros V op L fuel modules modules' c rest rest' m m' hints hints' HO HM HK H1 H2.
  rewrite (class_valued L fuel modules c rest m HO) in H1. rewrite (class_valued L fuel modules' c rest' m' HO) in H2.
  destruct (mapO _ (rev rest)) as [ds|]; cbn [obind] in H1; [|discriminate].
  destruct (mapO _ (rev rest')) as [ds'|]; cbn [obind] in H2; [|discriminate].
  rewrite HM in H2. destruct (valued L fuel (own_scope c) (modules (k_module c)) (k_anns c)) as [own|]; cbn [obind] in *; [|discriminate].
  assert (A : annotated rest' = annotated rest).
  { unfold annotated. rewrite !flat_map_concat_map, !map_rev, HK. reflexivity. }
  rewrite A in H2. congruence.
Qed.

Lemma c122_base_refuted_proof : forall {V op} (L : Lang V op) fuel modules (c : pyclass V) rest m b k s e n,
  In b rest -> In (k, VText s) (k_anns b) -> compile L s = Ok e -> In n (names_in e) ->
  bound L c (modules (k_module b)) n = None ->
  exists x m', class_hints L fuel modules c rest m = (Raise x, m').
Proof.
  intros V op L fuel modules c rest m b k s e n HI HA HC HN HB. eapply unknown; [right; exact HI|eassumption..].
Qed.

Lemma c123_own_name_partial_proof : forall {V op} (L : Lang V op) modules (c : pyclass V) rest own others k s,
  dict_ok (k_anns c) ->
  all_mean L c c (modules (k_module c)) own ->
  Forall2 (fun b ws => all_mean L c b (modules (k_module b)) ws) rest others ->
  In (k, VText s) (k_anns c) -> compile L s = Ok (XName (k_name c)) -> settled (k_obj c) -> (forall t, k_obj c <> VText t) ->
  exists n, forall fuel m, n <= fuel -> exists hints m',
    class_hints L fuel modules c rest m = (Ok hints, m') /\ dget k hints = Some (k_obj c).
Proof.
  intros V op L modules c rest own others k s HO HC HR HI HS SC NT. destruct (meaning L modules c rest own others HO HC HR) as [n R].
  exists n. intros fuel m HF. destruct (R fuel m HF) as [m' E]. exists (in_order (annotated rest) own), m'. split; [exact E|].
  rewrite dget_in_order.
  assert (HM : exists w, In (k, w) own /\ annotation_means L (bound L c (modules (k_module c))) (VText s) w).
  { clear - HC HI. unfold all_mean in HC. induction HC as [|[k1 v1] [k2 w2] a b [HK HM] _ IH]; [destruct HI|]. cbn [fst snd] in *. destruct HI as [HI|HI].
    - injection HI as -> ->. subst k2. exists w2. split; [left; reflexivity|exact HM].
    - destruct (IH HI) as (w & HW & HM'). exists w. split; [right; exact HW|exact HM']. }
  destruct HM as (w & HW & HM). cbn [annotation_means] in HM.
  assert (ES : forall v, means L (bound L c (modules (k_module c))) (XName (k_name c)) v -> v = k_obj c).
  { intros v MV. inversion MV as [x y EB| |]; subst. unfold bound in EB. rewrite String.eqb_refl in EB. cbn [orb] in EB. congruence. }
  assert (w = k_obj c).
  { inversion HM as [v SV|r1 s1 e v w1 C M T N D|r1 s1 e s' w1 C M D|]; subst.
    - destruct SV.
    - rewrite HS in C. injection C as <-. rewrite (ES _ M) in D. apply (settled_resolves L _ _ _ SC D).
    - rewrite HS in C. injection C as <-. apply ES in M. destruct (NT s'). congruence. }
  subst w. apply dget_In; [|exact HW]. unfold dict_ok. rewrite (mean_keys L _ _ _ _ HC). exact HO.
Qed.

Lemma c123_qualname_refuted_proof : forall {V op} (L : Lang V op) fuel modules (c : pyclass V) rest m k s o outer,
  In (k, VText s) (k_anns c) ->
  k_qualname c = (outer ++ "." ++ k_name c)%string ->
  compile L s = Ok (XOp o [XName outer]) ->
  outer <> k_name c -> dget outer (modules (k_module c)) = None -> dget outer (builtins L) = None ->
  exists x m', class_hints L fuel modules c rest m = (Raise x, m').
Proof.
  intros V op L fuel modules c rest m k s o outer HI HQ HS HN HG HB.
  eapply unknown; [left; reflexivity|exact HI|exact HS|left; reflexivity|].
  unfold bound. destruct (String.eqb_spec outer (k_name c)); [contradiction|].
  destruct (String.eqb_spec outer (k_qualname c)) as [E|].
  - exfalso. rewrite HQ in E. clear - E. apply (f_equal String.length) in E. rewrite string_length_app in E. cbn [String.length append] in E. lia.
  - cbn [orb]. rewrite HG. exact HB.
Qed.

Lemma c123_subclass_refuted_proof : forall {V op} (L : Lang V op) fuel modules (c : pyclass V) rest m p k s e,
  In p rest -> In (k, VText s) (k_anns p) -> compile L s = Ok e -> In (k_name p) (names_in e) ->
  dget (k_name p) (modules (k_module p)) = None -> dget (k_name p) (builtins L) = None ->
  k_name p <> k_name c -> k_name p <> k_qualname c ->
  exists x m', class_hints L fuel modules c rest m = (Raise x, m').
Proof.
  intros V op L fuel modules c rest m p k s e HI HA HC HN HG HB N1 N2.
  eapply unknown; [right; exact HI|exact HA|exact HC|exact HN|].
  unfold bound. destruct (String.eqb_spec (k_name p) (k_name c)); [contradiction|].
  destruct (String.eqb_spec (k_name p) (k_qualname c)); [contradiction|]. cbn [orb]. rewrite HG. exact HB.
Qed.
