(** Cycles_main.v -- proofs of the properties stated in Props_Cycles.v: printing and comparing records that refer to each other *)

From Verif Require Import Base Deep Spec_Deep Spec_Graph Graph.
Open Scope string_scope.
Open Scope list_scope.

Lemma show_all_some (f : nat -> option string) xs : (forall x, In x xs -> exists s, f x = Some s) -> exists l, show_all f xs = Some l.
Proof.
  induction xs as [|x xs IH]; intros H; cbn; [eauto|].
  destruct (H x (or_introl eq_refl)) as [s ->]. destruct IH as [l ->]; [intros; apply H; now right|]. eauto.
Qed.
Lemma show_all_none (f : nat -> option string) xs x : In x xs -> f x = None -> show_all f xs = None.
Proof.
  induction xs as [|y xs IH]; [intros []|]. intros [->|H] E; cbn; [now rewrite E|].
  destruct (f y); [|reflexivity]. now rewrite IH.
Qed.
Lemma show_all_more (f g : nat -> option string) xs : (forall x s, f x = Some s -> g x = Some s) ->
  forall l, show_all f xs = Some l -> show_all g xs = Some l.
Proof.
  intros H. induction xs as [|x xs IH]; intros l E; cbn in *; [exact E|].
  destruct (f x) as [s|] eqn:Ef; [|discriminate]. rewrite (H _ _ Ef).
  destruct (show_all f xs) as [l'|]; [|discriminate]. now rewrite (IH l' eq_refl).
Qed.

Lemma Forall2_impl' {A B} (P Q : A -> B -> Prop) l l' : (forall a b, P a b -> Q a b) -> Forall2 P l l' -> Forall2 Q l l'.
Proof. intros H. induction 1; constructor; auto. Qed.

Section Show.
Context (objects : list node) (text class_name : nat -> string).
Notation show := (show objects text class_name).

Lemma show_more : forall n active x s, show n active x = Some s -> show (S n) active x = Some s.
Proof.
  induction n as [|n IH]; intros active x s E; [discriminate|].
  cbn [Graph.show] in E. remember (S n) as m. cbn [Graph.show]. subst m.
  assert (K : forall active xs l, show_all (show n active) xs = Some l -> show_all (show (S n) active) xs = Some l)
    by (intros a xs; apply show_all_more; intros; now apply IH).
  destruct (nth_error objects x) as [[|xs|xs|kvs|c fs]|]; auto;
    try match goal with |- (if busy x active then _ else _) = _ => destruct (busy x active); [assumption|] end.
  - destruct (show_all (show n (x :: active)) xs) as [l|] eqn:El; [|discriminate]. now rewrite (K _ _ _ El).
  - destruct (show_all (show n (x :: active)) xs) as [l|] eqn:El; [|discriminate]. now rewrite (K _ _ _ El).
  - destruct (show_all (show n (x :: active)) (map snd kvs)) as [l|] eqn:El; [|discriminate]. now rewrite (K _ _ _ El).
  - destruct (show_all (show n active) (map snd fs)) as [l|] eqn:El; [|discriminate]. now rewrite (K _ _ _ El).
Qed.
Lemma show_le n m active x s : n <= m -> show n active x = Some s -> show m active x = Some s.
Proof. induction 1; auto. intros H0. apply show_more. auto. Qed.

Lemma all_fuels active xs : (forall x, In x xs -> exists n s, show n active x = Some s) ->
  exists n, forall x, In x xs -> exists s, show n active x = Some s.
Proof.
  induction xs as [|x xs IH]; intros H; [exists 0; intros x []|].
  destruct (H x (or_introl eq_refl)) as (n & s & E). destruct IH as [m Hm]; [intros; apply H; now right|].
  exists (n + m). intros y [<-|Hy].
  - exists s. eapply show_le; [|exact E]. lia.
  - destruct (Hm y Hy) as [t Ht]. exists t. eapply show_le; [|exact Ht]. lia.
Qed.

(** containers not being printed yet *)
Definition idle (active : list nat) : nat := List.length (filter (fun x => negb (busy x active)) (seq 0 (List.length objects))).

Lemma filter_length_le (p q : nat -> bool) l : (forall x, In x l -> p x = true -> q x = true) -> List.length (filter p l) <= List.length (filter q l).
Proof.
  induction l as [|x l IH]; intros H; cbn; [lia|]. specialize (IH (fun y Hy => H y (or_intror Hy))).
  pose proof (H x (or_introl eq_refl)). destruct (p x), (q x); cbn; try lia; now specialize (H0 eq_refl).
Qed.
Lemma filter_length_lt (p q : nat -> bool) l y : (forall x, In x l -> p x = true -> q x = true) -> In y l -> p y = false -> q y = true ->
  List.length (filter p l) < List.length (filter q l).
Proof.
  induction l as [|x l IH]; intros H Hy Hp Hq; [destruct Hy|].
  pose proof (filter_length_le p q l (fun z Hz => H z (or_intror Hz))) as L. cbn. destruct Hy as [->|Hy].
  - rewrite Hp, Hq. cbn. lia.
  - specialize (IH (fun z Hz => H z (or_intror Hz)) Hy Hp Hq). pose proof (H x (or_introl eq_refl)).
    destruct (p x), (q x); cbn; try lia; now specialize (H0 eq_refl).
Qed.

Lemma idle_less active x : x < List.length objects -> busy x active = false -> idle (x :: active) < idle active.
Proof.
  intros Hx Hb. apply filter_length_lt with (y := x).
  - intros y _. cbn. destruct (Nat.eqb y x); cbn; [discriminate|auto].
  - apply in_seq. lia.
  - cbn. now rewrite Nat.eqb_refl.
  - now rewrite Hb.
Qed.

(** ** where printing ends *)
Definition below (y x : nat) : Prop := is_record objects x /\ is_record objects y /\ refers objects x y.
Context (among : nat -> Prop) (closed_among : forall x y, among x -> refers objects x y -> among y).
Context (HR : forall x, among x -> is_record objects x -> Acc below x).

Lemma shows : forall k active, idle active < k -> forall x, among x -> exists n s, show n active x = Some s.
Proof.
  induction k as [|k IH]; intros active Hk; [lia|].
  assert (K : forall x n, among x -> nth_error objects x = Some n -> busy x active = false ->
              exists m, forall y, In y (children n) -> exists s, show m (x :: active) y = Some s).
  { intros x n Hx Hn Hb. apply all_fuels. intros y Hy. apply IH; [|apply (closed_among x); [exact Hx|exists n; auto]].
    assert (x < List.length objects) by (apply nth_error_Some; congruence).
    pose proof (idle_less active x H Hb). lia. }
  assert (C : forall x, among x -> ~ is_record objects x -> exists n s, show n active x = Some s).
  { intros x Ha Hx. destruct (nth_error objects x) as [[|xs|xs|kvs|c fs]|] eqn:E.
    - exists 1. cbn. rewrite E. eauto.
    - destruct (busy x active) eqn:Hb; [exists 1; cbn; rewrite E, Hb; eauto|].
      destruct (K x _ Ha E Hb) as [m Hm]. cbn [children] in Hm. exists (S m). cbn [Graph.show]. rewrite E, Hb. destruct (show_all_some _ _ Hm) as [l ->]. eauto.
    - destruct (busy x active) eqn:Hb; [exists 1; cbn; rewrite E, Hb; eauto|].
      destruct (K x _ Ha E Hb) as [m Hm]. cbn [children] in Hm. exists (S m). cbn [Graph.show]. rewrite E, Hb. destruct (show_all_some _ _ Hm) as [l ->].
      destruct l as [|? [|? ?]]; eauto.
    - destruct (busy x active) eqn:Hb; [exists 1; cbn; rewrite E, Hb; eauto|].
      destruct (K x _ Ha E Hb) as [m Hm]. cbn [children] in Hm. exists (S m). cbn [Graph.show]. rewrite E, Hb. destruct (show_all_some _ _ Hm) as [l ->]. eauto.
    - destruct Hx. now exists c, fs.
    - exists 1. cbn. rewrite E. eauto. }
  assert (D : forall x, Acc below x -> is_record objects x -> among x -> exists n s, show n active x = Some s).
  { induction 1 as [x _ IHr]. intros (c & fs & E) Ha.
    assert (F : forall y, In y (map snd fs) -> exists n s, show n active y = Some s).
    { intros y Hy. assert (RF : refers objects x y) by (exists (NRec c fs); split; [exact E|exact Hy]).
      pose proof (closed_among x y Ha RF) as Hay.
      destruct (nth_error objects y) as [[|xs|xs|kvs|c' fs']|] eqn:Ey; try (apply C; [exact Hay|]; intros (c0 & fs0 & H); congruence).
      assert (RY : is_record objects y) by now exists c', fs'. apply IHr; [|exact RY|exact Hay]. split; [now exists c, fs|]. split; assumption. }
    destruct (all_fuels active _ F) as [m Hm]. exists (S m). cbn [Graph.show]. rewrite E. destruct (show_all_some _ _ Hm) as [l ->]. eauto. }
  intros x Ha. destruct (nth_error objects x) as [[|xs|xs|kvs|c fs]|] eqn:E; try (apply C; [exact Ha|]; intros (c0 & fs0 & H); congruence).
  assert (RX : is_record objects x) by now exists c, fs. apply D; auto.
Qed.
End Show.

(** records that do not reach themselves over records *)
Lemma chains_end objects (among : nat -> Prop) : (forall x y, among x -> refers objects x y -> among y) ->
  (forall r, among r -> ~ over_records objects r r) ->
  forall r, among r -> is_record objects r -> Acc (below objects) r.
Proof.
  intros CL NC.
  assert (K : forall k chain r, List.length objects < List.length chain + k -> NoDup chain -> Forall (fun c => c < List.length objects /\ over_records objects c r) chain ->
              among r -> is_record objects r -> Acc (below objects) r).
  { induction k as [|k IH]; intros chain r L ND F Ha Hr.
    - exfalso. assert (List.length chain <= List.length (seq 0 (List.length objects))).
      { apply NoDup_incl_length; [exact ND|]. intros c Hc. rewrite Forall_forall in F. apply in_seq. specialize (F c Hc). lia. }
      rewrite seq_length in H. lia.
    - assert (NI : ~ In r chain) by (intros Hin; rewrite Forall_forall in F; apply (NC r Ha); apply F; exact Hin).
      constructor. intros y (_ & Hy & RF). apply (IH (r :: chain)).
      + cbn. lia.
      + constructor; assumption.
      + constructor.
        * split; [destruct Hr as (c & fs & E); apply nth_error_Some; congruence|]. apply records_step; assumption.
        * eapply Forall_impl; [|exact F]. intros c [H1 H2]. split; [exact H1|]. eapply records_trans; [exact H2|]. apply records_step; assumption.
      + eapply CL; eassumption.
      + exact Hy. }
  intros r Ha Hr. apply (K (S (List.length objects)) []); auto; try constructor; cbn; lia.
Qed.

(** a walk to a cycle of records that meets no container twice *)
Inductive walk (objects : list node) : list nat -> nat -> Prop :=
| walk_here avoid r : over_records objects r r -> walk objects avoid r
| walk_record avoid x y : is_record objects x -> refers objects x y -> walk objects avoid y -> walk objects avoid x
| walk_container avoid x y : ~ is_record objects x -> ~ In x avoid -> refers objects x y -> walk objects (x :: avoid) y -> walk objects avoid x.

Lemma over_first objects a b : over_records objects a b -> is_record objects a /\ exists c, refers objects a c /\ (c = b \/ over_records objects c b).
Proof.
  induction 1 as [a b H1 H2 H3|a b c _ [R1 (d & D1 & D2)] H2 _]; [split; [exact H1|]; exists b; auto|].
  split; [exact R1|]. exists d. split; [exact D1|]. right. destruct D2 as [->|D2]; [exact H2|eapply records_trans; eassumption].
Qed.
Lemma walk_none objects text class_name : forall fuel active x, walk objects active x -> show objects text class_name fuel active x = None.
Proof.
  induction fuel as [|n IH]; intros active x W; [reflexivity|]. cbn [show].
  assert (REC : forall y, is_record objects x -> refers objects x y -> walk objects active y ->
    match nth_error objects x with
    | Some (NRec c fs) => match show_all (show objects text class_name n active) (map snd fs) with
                          | Some l => Some (class_name c ++ "(" ++ joined (named "=" (map fst fs) l) ++ ")")%string
                          | None => None
                          end
    | _ => None
    end = None).
  { intros y (c & fs & E) (nd & En & Hy) Wy. rewrite E in *. injection En as <-. cbn [children] in Hy. rewrite (show_all_none _ _ y Hy (IH active y Wy)). reflexivity. }
  destruct W as [active r O|active x y Hx RF W|active x y Hx NI RF W].
  - destruct (over_first _ _ _ O) as [Hr (y & RF & O')].
    assert (Wy : walk objects active y).
    { destruct O' as [->|O']; [now apply walk_here|]. apply walk_here. eapply records_trans; [exact O'|]. apply over_first in O' as Q. destruct Q as [Hy _]. apply records_step; assumption. }
    specialize (REC y Hr RF Wy). destruct Hr as (c & fs & E). rewrite E in *. exact REC.
  - specialize (REC y Hx RF W). destruct Hx as (c & fs & E). rewrite E in *. exact REC.
  - clear REC. assert (Hb : busy x active = false).
    { unfold busy. destruct (existsb (Nat.eqb x) active) eqn:Eb; [|reflexivity]. apply existsb_exists in Eb. destruct Eb as (z & Hz & Ez). apply Nat.eqb_eq in Ez. subst z. contradiction. }
    destruct RF as (nd & En & Hy). rewrite En. destruct nd as [|xs|xs|kvs|c fs]; cbn [children] in Hy; try rewrite Hb; try rewrite (show_all_none _ _ y Hy (IH (x :: active) y W)); try reflexivity.
    + destruct Hy.
    + destruct Hx. now exists c, fs.
Qed.
Lemma is_record_dec objects x : {is_record objects x} + {~ is_record objects x}.
Proof. destruct (nth_error objects x) as [[|xs|xs|kvs|c fs]|] eqn:E; try (right; intros (c' & fs' & H); congruence). left. now exists c, fs. Qed.

(** a path: each refers to the next *)
Fixpoint path (objects : list node) (x : nat) (p : list nat) (z : nat) : Prop :=
  match p with
  | [] => x = z
  | y :: r => refers objects x y /\ path objects y r z
  end.
Lemma path_simple objects z : forall p x, path objects x p z -> exists q, path objects x q z /\ NoDup (x :: q).
Proof.
  assert (K : forall p x, path objects x p z -> exists q, path objects x q z /\ NoDup (x :: q) /\ incl q p).
  { induction p as [|a r IH]; intros x HP; cbn in HP.
    - exists []. split; [exact HP|]. split; [repeat constructor; intros []|intros b []].
    - destruct HP as [RF HP]. destruct (IH a HP) as (q & Q & ND & I).
      destruct (in_dec Nat.eq_dec x (a :: q)) as [Hin|NI].
      + destruct Hin as [->|Hin].
        * exists q. split; [exact Q|]. split; [exact ND|]. intros b Hb. right. apply I. exact Hb.
        * assert (ST : exists q', path objects x q' z /\ NoDup (x :: q') /\ incl q' q).
          { clear - Q ND Hin. revert a Q ND. induction q as [|b q IH]; intros a Q ND; [destruct Hin|]. cbn in Q. destruct Q as [_ Q].
            assert (ND' : NoDup (b :: q)) by (inversion ND; assumption).
            destruct Hin as [->|Hin]; [exists q; repeat split; auto; intros c Hc; now right|].
            destruct (IH Hin b Q ND') as (q' & A & B & C). exists q'. repeat split; auto. intros c Hc. right. apply C. exact Hc. }
          destruct ST as (q' & A & B & C). exists q'. repeat split; auto. intros b Hb. right. apply I. apply C. exact Hb.
      + exists (a :: q). split; [split; assumption|]. split; [constructor; assumption|]. intros b [<-|Hb]; [now left|right; apply I; exact Hb]. }
  intros p x HP. destruct (K p x HP) as (q & Q & ND & _). eauto.
Qed.
Lemma path_walk objects z : over_records objects z z -> forall p x avoid, path objects x p z -> NoDup (x :: p) -> (forall y, In y (x :: p) -> ~ In y avoid) -> walk objects avoid x.
Proof.
  intros O. induction p as [|y r IH]; intros x avoid HP ND AV; cbn in HP; [subst z; now apply walk_here|]. destruct HP as [RF HP].
  inversion ND as [|? ? NI ND']; subst. destruct (is_record_dec objects x) as [Hx|Hx].
  - eapply walk_record; [exact Hx|exact RF|]. apply IH; [exact HP|exact ND'|]. intros w Hw. apply AV. now right.
  - eapply walk_container; [exact Hx|apply AV; now left|exact RF|]. apply IH; [exact HP|exact ND'|]. intros w Hw [<-|Hin]; [contradiction|]. exact (AV w (or_intror Hw) Hin).
Qed.
Lemma reaches_path objects a b : reaches objects a b -> exists p, path objects a p b.
Proof.
  induction 1 as [a n b E H|a n b c E H _ [p HP]].
  - exists [b]. split; [exists n; auto|reflexivity].
  - exists (b :: p). split; [exists n; auto|exact HP].
Qed.
Lemma reaches_more objects x y z : x = y \/ reaches objects x y -> refers objects y z -> reaches objects x z.
Proof.
  intros [->|H] (n & E & Hz); [eapply reaches_step; eassumption|]. induction H as [a m b E' H|a m b c E' H _ IH].
  - eapply reaches_trans; [exact E'|exact H|]. eapply reaches_step; eassumption.
  - eapply reaches_trans; [exact E'|exact H|]. apply IH. exact E.
Qed.

(** ** what is printed *)
Lemma joined_concat l : joined l = String.concat ", " l.
Proof. induction l as [|s [|t r] IH]; [reflexivity..|]. cbn [joined] in *. rewrite IH. reflexivity. Qed.
Lemma busy_in x active : busy x active = true <-> In x active.
Proof. unfold busy. rewrite existsb_exists. split; [intros (y & H & E); apply Nat.eqb_eq in E; now subst|]. intros H. exists x. split; [exact H|apply Nat.eqb_refl]. Qed.
Lemma busy_out x active : ~ In x active -> busy x active = false.
Proof. rewrite <- busy_in. destruct (busy x active); congruence. Qed.
Lemma show_all_each (f : nat -> option string) xs : forall l, show_all f xs = Some l -> Forall2 (fun x s => f x = Some s) xs l.
Proof.
  induction xs as [|x xs IH]; intros l E; cbn in E; [injection E as <-; constructor|].
  destruct (f x) as [s|] eqn:Ef; [|discriminate]. destruct (show_all f xs) as [l'|]; [|discriminate]. injection E as <-. constructor; auto.
Qed.
Lemma named_each (R : nat -> string -> Prop) (key : string * nat -> string) (sep : string) kvs : forall l, Forall2 R (map snd kvs) l ->
  Forall2 (fun kv s => exists t, R (snd kv) t /\ s = (key kv ++ sep ++ t)%string) kvs (named sep (map key kvs) l).
Proof.
  induction kvs as [|kv kvs IH]; intros l F; cbn in F; inversion F as [|? t ? l' H F']; subst; [constructor|]. cbn. constructor; [exists t; auto|apply IH; exact F'].
Qed.
Lemma app_assoc_str a b c : ((a ++ b) ++ c = a ++ b ++ c)%string.
Proof. induction a; cbn; congruence. Qed.
Lemma show_prints objects text class_name : forall fuel opened x s, show objects text class_name fuel opened x = Some s -> prints objects text class_name opened x s.
Proof.
  induction fuel as [|n IH]; intros opened x s E; [discriminate|]. cbn [show] in E.
  assert (ALL : forall opened xs l, show_all (show objects text class_name n opened) xs = Some l -> Forall2 (prints objects text class_name opened) xs l).
  { intros o xs l H. apply show_all_each in H. clear - H IH. induction H; constructor; auto. }
  destruct (nth_error objects x) as [[|xs|xs|kvs|c fs]|] eqn:Ex.
  - injection E as <-. apply print_other. now right.
  - destruct (busy x opened) eqn:Hb; [injection E as <-; eapply print_list_again; [exact Ex|now apply busy_in]|].
    assert (NI : ~ In x opened) by (rewrite <- busy_in; congruence).
    destruct (show_all _ xs) as [l|] eqn:El; [|discriminate]. injection E as <-. rewrite joined_concat. eapply print_list; eauto.
  - destruct (busy x opened) eqn:Hb; [injection E as <-; eapply print_tuple_again; [exact Ex|now apply busy_in]|].
    assert (NI : ~ In x opened) by (rewrite <- busy_in; congruence).
    destruct (show_all _ xs) as [l|] eqn:El; [|discriminate]. apply ALL in El.
    assert (LEN : List.length xs = List.length l) by (clear - El; induction El; cbn; congruence).
    destruct l as [|a [|b l]].
    + injection E as <-. eapply (print_tuple _ _ _ _ _ _ []); eauto. rewrite LEN. discriminate.
    + injection E as <-. inversion El as [|y ? ys ? HY EY]; subst. inversion EY; subst. eapply print_single; eauto.
    + assert (Es : s = ("(" ++ joined (a :: b :: l) ++ ")")%string) by congruence. rewrite Es, joined_concat. apply (print_tuple _ _ _ _ _ xs (a :: b :: l)); auto. rewrite LEN. discriminate.
  - destruct (busy x opened) eqn:Hb; [injection E as <-; eapply print_dict_again; [exact Ex|now apply busy_in]|].
    assert (NI : ~ In x opened) by (rewrite <- busy_in; congruence).
    destruct (show_all _ (map snd kvs)) as [l|] eqn:El; [|discriminate]. injection E as <-. rewrite joined_concat. eapply print_dict; eauto.
    apply ALL in El. apply (named_each _ (fun kv => ("'" ++ fst kv ++ "'")%string) ": ") in El. revert El. apply Forall2_impl'. intros kv s (t & H & ->). exists t. split; [exact H|].
    rewrite !app_assoc_str. reflexivity.
  - destruct (show_all _ (map snd fs)) as [l|] eqn:El; [|discriminate]. injection E as <-. rewrite joined_concat. eapply print_record; eauto.
    apply ALL in El. apply (named_each _ fst "=") in El. exact El.
  - injection E as <-. apply print_other. now left.
Qed.

Lemma prints_show objects text class_name : forall opened x s, prints objects text class_name opened x s -> exists fuel, show objects text class_name fuel opened x = Some s.
Proof.
  assert (ALL : forall opened xs ss, Forall2 (fun x s => exists fuel, show objects text class_name fuel opened x = Some s) xs ss ->
                exists fuel, show_all (show objects text class_name fuel opened) xs = Some ss).
  { intros opened xs ss. induction 1 as [|x s xs ss [n E] _ [m F]]; [now exists 0|]. exists (n + m). cbn.
    rewrite (show_le objects text class_name n (n + m) opened x s ltac:(lia) E).
    rewrite (show_all_more _ (show objects text class_name (n + m) opened) xs (fun y t => show_le objects text class_name m (n + m) opened y t ltac:(lia)) ss F). reflexivity. }
  assert (NAMED : forall opened (key : string * nat -> string) (sep : string) kvs ss,
            Forall2 (fun kv s => exists t, (exists fuel, show objects text class_name fuel opened (snd kv) = Some t) /\ s = (key kv ++ sep ++ t)%string) kvs ss ->
            exists fuel l, show_all (show objects text class_name fuel opened) (map snd kvs) = Some l /\ named sep (map key kvs) l = ss).
  { intros opened key sep kvs ss F.
    assert (G : exists ts, Forall2 (fun x s => exists fuel, show objects text class_name fuel opened x = Some s) (map snd kvs) ts /\ named sep (map key kvs) ts = ss).
    { induction F as [|kv s kvs ss (t & H & ->) _ (ts & G & N)]; [exists []; split; [constructor|reflexivity]|].
      exists (t :: ts). split; [constructor; assumption|]. cbn. f_equal. exact N. }
    destruct G as (ts & G & N). destruct (ALL _ _ _ G) as [fuel E]. eauto. }
  fix IH 4. intros opened x s P. destruct P as [opened x O|opened x xs ss E NI F|opened x y s E NI F|opened x xs ss E L NI F|opened x kvs ss E NI F|opened x xs E Hin|opened x xs E Hin|opened x kvs E Hin|opened x c fs ss E F].
  - exists 1. cbn. destruct O as [O|O]; rewrite O; reflexivity.
  - assert (G : Forall2 (fun x' s => exists fuel, show objects text class_name fuel (x :: opened) x' = Some s) xs ss).
    { clear E. revert xs ss F. fix IHF 3. intros xs ss [|y t xs' ss' H F]; constructor; [apply IH; exact H|apply IHF; exact F]. }
    destruct (ALL _ _ _ G) as [fuel Ef]. exists (S fuel). cbn [show]. rewrite E. apply busy_out in NI. rewrite NI, Ef, joined_concat. reflexivity.
  - destruct (IH _ _ _ F) as [fuel Ef]. exists (S fuel). cbn [show]. rewrite E. apply busy_out in NI. rewrite NI. cbn [show_all]. rewrite Ef. reflexivity.
  - assert (G : Forall2 (fun x' s => exists fuel, show objects text class_name fuel (x :: opened) x' = Some s) xs ss).
    { clear E L. revert xs ss F. fix IHF 3. intros xs ss [|y t xs' ss' H F]; constructor; [apply IH; exact H|apply IHF; exact F]. }
    assert (LEN : List.length xs = List.length ss) by (clear - G; induction G; cbn; congruence).
    destruct (ALL _ _ _ G) as [fuel Ef]. exists (S fuel). cbn [show]. rewrite E. apply busy_out in NI. rewrite NI, Ef, <- joined_concat.
    destruct ss as [|a [|b ss]]; [reflexivity|cbn in LEN; congruence|reflexivity].
  - assert (G : Forall2 (fun kv s => exists t, (exists fuel, show objects text class_name fuel (x :: opened) (snd kv) = Some t) /\ s = (("'" ++ fst kv ++ "'") ++ ": " ++ t)%string) kvs ss).
    { clear E. revert kvs ss F. fix IHF 3. intros kvs ss [|kv t kvs' ss' H F]; constructor; [|apply IHF; exact F].
      destruct H as (u & H & ->). exists u. split; [apply IH; exact H|]. rewrite !app_assoc_str. reflexivity. }
    destruct (NAMED _ (fun kv => "'" ++ fst kv ++ "'")%string _ _ _ G) as (fuel & l & Ef & N). exists (S fuel). cbn [show]. rewrite E. apply busy_out in NI. rewrite NI, Ef, N, joined_concat. reflexivity.
  - exists 1. cbn. apply busy_in in Hin. rewrite E, Hin. reflexivity.
  - exists 1. cbn. apply busy_in in Hin. rewrite E, Hin. reflexivity.
  - exists 1. cbn. apply busy_in in Hin. rewrite E, Hin. reflexivity.
  - assert (G : Forall2 (fun kv s => exists t, (exists fuel, show objects text class_name fuel opened (snd kv) = Some t) /\ s = (fst kv ++ "=" ++ t)%string) fs ss).
    { clear E. revert fs ss F. fix IHF 3. intros kvs ss [|kv t kvs' ss' H F]; constructor; [|apply IHF; exact F].
      destruct H as (u & H & ->). exists u. split; [apply IH; exact H|reflexivity]. }
    destruct (NAMED _ fst _ _ _ G) as (fuel & l & Ef & N). exists (S fuel). cbn [show]. rewrite E, Ef, N, joined_concat. reflexivity.
Qed.

(** ** == *)
Lemma same_length {A B} (R : A -> B -> Prop) l l' : Forall2 R l l' -> List.length l = List.length l'.
Proof. induction 1; cbn; congruence. Qed.
Lemma all_equal_spec (f : nat -> nat -> option bool) (R : nat -> nat -> Prop) xs : forall ys,
  (forall a b, In a xs -> In b ys -> exists v, f a b = Some v /\ (v = true <-> R a b)) ->
  exists v, all_equal f xs ys = Some v /\ (List.length xs = List.length ys -> (v = true <-> Forall2 R xs ys)).
Proof.
  induction xs as [|x xs IH]; intros [|y ys] H; cbn.
  - exists true. split; auto. intros _. split; auto.
  - exists true. split; auto. discriminate.
  - exists true. split; auto. discriminate.
  - destruct (H x y (or_introl eq_refl) (or_introl eq_refl)) as (v & -> & Hv). destruct v.
    + destruct (IH ys) as (v & -> & Hs); [intros; apply H; now right|]. exists v. split; auto.
      intros L. injection L as L. rewrite (Hs L). split; [intros F; constructor; [now apply Hv|exact F]|].
      intros F. now inversion F.
    + exists false. split; auto. intros _. split; [discriminate|]. intros F. inversion F; subst. now apply Hv.
Qed.

Lemma items_equal_spec (f : nat -> nat -> option bool) (R : nat -> nat -> Prop) kvs' kvs :
  (forall a b, In a (map snd kvs) -> In b (map snd kvs') -> exists v, element_equal f b a = Some v /\ (v = true <-> R b a)) ->
  exists v, items_equal f kvs kvs' = Some v /\
    (v = true <-> forall k a, In (k, a) kvs -> exists b, dget k kvs' = Some b /\ R b a).
Proof.
  induction kvs as [|[k x] kvs IH]; intros H; cbn.
  - exists true. split; auto. split; auto. intros _ k a [].
  - destruct (dget k kvs') as [y|] eqn:E.
    + assert (Hy : In y (map snd kvs')).
      { clear -E. induction kvs' as [|[k' y'] l IH]; cbn in *; [discriminate|]. destruct (String.eqb k k'); [injection E as ->; now left|right; auto]. }
      destruct (H x y (or_introl eq_refl) Hy) as (v & -> & Hv). destruct v.
      * destruct IH as (v & -> & Hs); [intros; apply H; auto; now right|]. exists v. split; auto. rewrite Hs. split.
        -- intros F k' a [Ea|Ha]; [|now apply F]. injection Ea as <- <-. exists y. split; auto. now apply Hv.
        -- intros F k' a Ha. apply F. now right.
      * exists false. split; auto. split; [discriminate|]. intros F. destruct (F k x (or_introl eq_refl)) as (b & Eb & Rb).
        rewrite E in Eb. injection Eb as <-. now apply Hv.
    + exists false. split; auto. split; [discriminate|]. intros F. destruct (F k x (or_introl eq_refl)) as (b & Eb & _). congruence.
Qed.

Lemma all_equal_same (f : nat -> nat -> option bool) xs : (forall x, In x xs -> f x x = Some true) -> all_equal f xs xs = Some true.
Proof. induction xs as [|x xs IH]; intros H; cbn; [reflexivity|]. rewrite H by now left. apply IH. intros; apply H; now right. Qed.

Lemma dget_own {A} k (a : A) kvs : NoDup (map fst kvs) -> In (k, a) kvs -> dget k kvs = Some a.
Proof.
  induction kvs as [|[k' b] l IH]; cbn; [intros _ []|]. intros ND [E|H].
  - injection E as -> ->. now rewrite String.eqb_refl.
  - inversion ND; subst. destruct (String.eqb_spec k k') as [->|N]; [|auto].
    exfalso. apply H2. now apply (in_map fst) in H.
Qed.
Lemma items_equal_same (f : nat -> nat -> option bool) all kvs : NoDup (map fst all) -> (forall kv, In kv kvs -> In kv all) ->
  items_equal f kvs all = Some true.
Proof.
  intros ND. induction kvs as [|[k x] kvs IH]; intros H; cbn; [reflexivity|].
  rewrite (dget_own k x all ND) by (apply H; now left). unfold element_equal. rewrite Nat.eqb_refl. apply IH. intros; apply H; now right.
Qed.

Lemma c129_repr_partial_proof : forall objects text class_name rank x,
  no_chain_of_records objects rank ->
  exists enough s, forall fuel, enough <= fuel -> show objects text class_name fuel [] x = Some s.
Proof.
  intros objects text class_name rank x HR.
  assert (A : forall y, Acc (below objects) y).
  { intros y. assert (K : forall r y, rank y < r -> Acc (below objects) y); [|apply (K (S (rank y))); lia].
    induction r as [|r IH]; intros z Hz; [lia|]. constructor. intros w (H1 & H2 & H3). apply IH. specialize (HR z w H1 H2 H3). lia. }
  destruct (shows objects text class_name (fun _ => True) (fun _ _ _ _ => I) (fun y _ _ => A y) (S (idle objects [])) [] ltac:(lia) x I) as (n & s & E).
  exists n, s. intros fuel Hf. eapply show_le; eassumption.
Qed.

Lemma c129_repr_exact_proof : forall objects text class_name x,
  (exists fuel s, show objects text class_name fuel [] x = Some s) <->
  (forall r, r = x \/ reaches objects x r -> ~ over_records objects r r).
Proof.
  intros objects text class_name x. split.
  - intros (fuel & s & E) r HR O. assert (P : exists p, path objects x p r).
    { destruct HR as [->|HR]; [exists []; reflexivity|]. apply reaches_path. exact HR. }
    destruct P as [p HP]. destruct (path_simple objects r p x HP) as (q & HQ & ND).
    assert (W : walk objects [] x) by (eapply path_walk; try eassumption; intros y _ []).
    rewrite (walk_none objects text class_name fuel [] x W) in E. discriminate.
  - intros H. set (among := fun r => r = x \/ reaches objects x r).
    assert (CL : forall a b, among a -> refers objects a b -> among b).
    { intros a b Ha RF. right. apply (reaches_more objects x a b); [|exact RF]. destruct Ha as [->|Ha]; auto. }
    destruct (shows objects text class_name among CL (chains_end objects among CL H) (S (idle objects [])) [] ltac:(lia) x (or_introl eq_refl)) as (n & s & E). eauto.
Qed.

Lemma c129_repr_text_proof : forall objects text class_name x s,
  (exists fuel, show objects text class_name fuel [] x = Some s) <-> prints objects text class_name [] x s.
Proof.
 intros objects text class_name x s. split; [intros [fuel E]; eapply show_prints; exact E|apply prints_show]. Qed.

Lemma c129_repr_refuted_proof : forall objects text class_name (group : nat -> Prop),
  (forall r, group r -> exists c fs b, nth_error objects r = Some (NRec c fs) /\ In b (map snd fs) /\ group b) ->
  forall r, group r -> forall fuel, show objects text class_name fuel [] r = None.
Proof.
  intros objects text class_name group HG r Hr fuel. revert r Hr. induction fuel as [|n IH]; intros r Hr; [reflexivity|].
  destruct (HG r Hr) as (c & fs & b & E & Hb & Gb). cbn [show]. rewrite E.
  now rewrite (show_all_none _ _ b Hb (IH b Gb)).
Qed.

Lemma c129_equal_partial_proof : forall objects atom_eq rank x y fuel,
  well_formed objects -> no_cycle objects rank -> rank x < fuel -> rank y < fuel ->
  exists b, equal objects atom_eq fuel x y = Some b /\ (b = true <-> equals objects atom_eq x y).
Proof.
  intros objects atom_eq rank x y fuel [WF _] NC. revert x y. induction fuel as [|n IH]; intros x y Hx Hy; [lia|].
  assert (K : forall a b, refers objects x a -> refers objects y b ->
            (exists v, equal objects atom_eq n a b = Some v /\ (v = true <-> equals objects atom_eq a b)) /\
            (exists v, element_equal (equal objects atom_eq n) a b = Some v /\ (v = true <-> a = b \/ equals objects atom_eq a b)) /\
            (exists v, element_equal (equal objects atom_eq n) b a = Some v /\ (v = true <-> b = a \/ equals objects atom_eq b a))).
  { intros a b Ha Hb. apply NC in Ha. apply NC in Hb. assert (Ra : rank a < n) by lia. assert (Rb : rank b < n) by lia.
    split; [apply IH; assumption|]. unfold element_equal. rewrite (Nat.eqb_sym b a). destruct (Nat.eqb_spec a b) as [->|N].
    - split; exists true; intuition.
    - destruct (IH a b Ra Rb) as (v & -> & Hv). destruct (IH b a Rb Ra) as (v' & -> & Hv'). split; [exists v|exists v']; intuition. }
  cbn [equal]. destruct (nth_error objects x) as [nx|] eqn:Ex; [|].
  2:{ destruct (nth_error objects y) as [ny|] eqn:Ey.
      - destruct ny as [| | | |]; try (exists false; split; [reflexivity|]; split; [discriminate|]; intros Q; inversion Q; unfold other in *; intuition congruence).
        exists (atom_eq x y). split; [reflexivity|]. split; [constructor; unfold other; auto|].
        intros Q. inversion Q; congruence.
      - exists (atom_eq x y). split; [reflexivity|]. split; [constructor; unfold other; auto|].
        intros Q. inversion Q; congruence. }
  assert (Rx : forall a, In a (children nx) -> refers objects x a) by (intros; exists nx; auto).
  destruct (nth_error objects y) as [ny|] eqn:Ey.
  2:{ destruct nx; try (exists false; split; [reflexivity|]; split; [discriminate|]; intros Q; inversion Q; unfold other in *; intuition congruence).
      exists (atom_eq x y). split; [reflexivity|]. split; [constructor; unfold other; auto|]. intros Q. inversion Q; congruence. }
  assert (Ry : forall a, In a (children ny) -> refers objects y a) by (intros; exists ny; auto).
  destruct nx as [|xs|xs|kvs|c fs], ny as [|ys|ys|kvs'|d gs];
    try (exists false; split; [reflexivity|]; split; [discriminate|]; intros Q; inversion Q; unfold other in *; intuition congruence).
  - exists (atom_eq x y). split; [reflexivity|]. split; [constructor; unfold other; auto|]. intros Q. inversion Q; congruence.
  - destruct (Nat.eqb_spec (List.length xs) (List.length ys)) as [L|L].
    + destruct (all_equal_spec (element_equal (equal objects atom_eq n)) (fun a b => a = b \/ equals objects atom_eq a b) xs ys) as (v & Ev & Hv).
      { intros a b Ha Hb. apply (K a b (Rx a Ha) (Ry b Hb)). }
      exists v. split; [exact Ev|]. rewrite (Hv L). split; [intros F; eapply equal_lists; eassumption|].
      intros Q. inversion Q; unfold other in *; try (intuition congruence).
    + exists false. split; [reflexivity|]. split; [discriminate|]. intros Q. inversion Q; unfold other in *; try (intuition congruence).
      assert (xs0 = xs) by congruence. assert (ys0 = ys) by congruence. subst. apply same_length in H1. congruence.
  - destruct (all_equal_spec (element_equal (equal objects atom_eq n)) (fun a b => a = b \/ equals objects atom_eq a b) xs ys) as (v & Ev & Hv).
    { intros a b Ha Hb. apply (K a b (Rx a Ha) (Ry b Hb)). }
    rewrite Ev. destruct (Nat.eqb_spec (List.length xs) (List.length ys)) as [L|L].
    + exists v. split; [now destruct v|]. rewrite (Hv L). split; [intros F; eapply equal_tuples; eassumption|].
      intros Q. inversion Q; unfold other in *; try (intuition congruence).
    + exists false. split; [now destruct v|]. split; [discriminate|]. intros Q. inversion Q; unfold other in *; try (intuition congruence).
      assert (xs0 = xs) by congruence. assert (ys0 = ys) by congruence. subst. apply same_length in H1. congruence.
  - destruct (Nat.eqb_spec (List.length kvs) (List.length kvs')) as [L|L].
    + destruct (items_equal_spec (equal objects atom_eq n) (fun b a => b = a \/ equals objects atom_eq b a) kvs' kvs) as (v & Ev & Hv).
      { intros a b Ha Hb. apply (K a b (Rx a Ha) (Ry b Hb)). }
      exists v. split; [exact Ev|]. rewrite Hv. split; [intros F; eapply equal_dicts; eassumption|].
      intros Q. inversion Q; unfold other in *; try (intuition congruence).
      assert (kvs0 = kvs) by congruence. assert (kvs'0 = kvs') by congruence. subst. assumption.
    + exists false. split; [reflexivity|]. split; [discriminate|]. intros Q. inversion Q; unfold other in *; try (intuition congruence).
  - destruct (Nat.eqb_spec c d) as [<-|N].
    + destruct (all_equal_spec (equal objects atom_eq n) (equals objects atom_eq) (map snd fs) (map snd gs)) as (v & Ev & Hv).
      { intros a b Ha Hb. apply (K a b (Rx a Ha) (Ry b Hb)). }
      exists v. split; [exact Ev|]. rewrite Hv; [|].
      * split; [intros F; eapply equal_records; eassumption|]. intros Q. inversion Q; unfold other in *; try (intuition congruence).
      * pose proof (f_equal (@List.length _) (WF _ _ _ _ _ Ex Ey)) as L. rewrite !map_length in *. exact L.
    + exists false. split; [reflexivity|]. split; [discriminate|]. intros Q. inversion Q; unfold other in *; try (intuition congruence).
Qed.

Lemma c129_equal_right_proof : forall objects atom_eq fuel x y b,
  well_formed objects -> equal objects atom_eq fuel x y = Some b -> (b = true <-> equals objects atom_eq x y).
Proof.
  intros objects atom_eq fuel x y b [WF WD]. revert x y b. induction fuel as [|n IH]; intros x y b E; [discriminate|].
  assert (EL : forall a c v, element_equal (equal objects atom_eq n) a c = Some v -> (v = true <-> a = c \/ equals objects atom_eq a c)).
  { intros a c v. unfold element_equal. destruct (Nat.eqb_spec a c) as [->|N]; intros H; [injection H as <-; tauto|]. rewrite (IH _ _ _ H). tauto. }
  assert (PAIRS : forall (f : nat -> nat -> option bool) (R : nat -> nat -> Prop), (forall a c v, f a c = Some v -> (v = true <-> R a c)) ->
            forall xs ys v, all_equal f xs ys = Some v -> List.length xs = List.length ys -> (v = true <-> Forall2 R xs ys)).
  { intros f R HF. induction xs as [|a xs IHx]; intros [|c ys] v H L; try discriminate; cbn in H; [injection H as <-; split; auto|].
    destruct (f a c) as [[|]|] eqn:Ef; [| |discriminate].
    - rewrite (IHx ys v H) by (injection L; auto). split; [intros F; constructor; [now apply (HF a c true)|exact F]|intros F; now inversion F].
    - injection H as <-. split; [discriminate|]. intros F. inversion F; subst. now apply (HF a c false). }
  cbn [equal] in E. destruct (nth_error objects x) as [[|xs|xs|kvs|c fs]|] eqn:Ex; destruct (nth_error objects y) as [[|ys|ys|kvs'|d gs]|] eqn:Ey;
    try (injection E as <-; split; [intros H; first [discriminate H|constructor; unfold other; auto]|intros Q; inversion Q; unfold other in *; intuition congruence]).
  - destruct (Nat.eqb_spec (List.length xs) (List.length ys)) as [L|L].
    + rewrite (PAIRS _ _ EL xs ys b E L). split; [intros F; eapply equal_lists; eassumption|]. intros Q. inversion Q; unfold other in *; try (intuition congruence).
    + injection E as <-. split; [discriminate|]. intros Q. inversion Q; unfold other in *; try (intuition congruence).
      assert (xs0 = xs) by congruence. assert (ys0 = ys) by congruence. subst. apply same_length in H1. congruence.
  - destruct (all_equal _ xs ys) as [v|] eqn:Ea; [|discriminate]. destruct (Nat.eqb_spec (List.length xs) (List.length ys)) as [L|L].
    + assert (b = v) by (destruct v; cbn in E; congruence). subst v. rewrite (PAIRS _ _ EL xs ys b Ea L). split; [intros F; eapply equal_tuples; eassumption|].
      intros Q. inversion Q; unfold other in *; try (intuition congruence).
    + assert (b = false) by (destruct v; cbn in E; congruence). subst b. split; [discriminate|]. intros Q. inversion Q; unfold other in *; try (intuition congruence).
      assert (xs0 = xs) by congruence. assert (ys0 = ys) by congruence. subst. apply same_length in H1. congruence.
  - destruct (Nat.eqb_spec (List.length kvs) (List.length kvs')) as [L|L].
    + assert (IT : forall l, items_equal (equal objects atom_eq n) l kvs' = Some b -> (b = true <-> forall k a, In (k, a) l -> exists c, dget k kvs' = Some c /\ (c = a \/ equals objects atom_eq c a))).
      { clear - EL. induction l as [|[k a] l IHl]; intros E; cbn [items_equal] in E; [injection E as <-; split; [intros _ ? ? []|reflexivity]|].
        destruct (dget k kvs') as [z|] eqn:Ez.
        - destruct (element_equal _ z a) as [[|]|] eqn:Ee; [| |discriminate].
          + rewrite (IHl E). split; [intros F k' a' [Q|Hin]; [injection Q as <- <-; exists z; split; [exact Ez|now apply (EL _ _ _ Ee)]|now apply F]|intros F k' a' Hin; apply F; now right].
          + injection E as <-. split; [discriminate|]. intros F. destruct (F k a (or_introl eq_refl)) as (c & Ec & H). rewrite Ez in Ec. injection Ec as <-. now apply (EL _ _ _ Ee).
        - injection E as <-. split; [discriminate|]. intros F. destruct (F k a (or_introl eq_refl)) as (c & Ec & H). congruence. }
      rewrite (IT kvs E). split; [intros F; eapply equal_dicts; eassumption|]. intros Q. inversion Q; unfold other in *; try (intuition congruence).
      assert (kvs0 = kvs) by congruence. assert (kvs'0 = kvs') by congruence. subst. assumption.
    + injection E as <-. split; [discriminate|]. intros Q. inversion Q; unfold other in *; try (intuition congruence).
  - destruct (Nat.eqb_spec c d) as [<-|N].
    + assert (L : List.length (map snd fs) = List.length (map snd gs)) by (pose proof (f_equal (@List.length _) (WF _ _ _ _ _ Ex Ey)) as L; rewrite !map_length in *; exact L).
      rewrite (PAIRS _ _ IH _ _ b E L). split; [intros F; eapply equal_records; eassumption|]. intros Q. inversion Q; unfold other in *; try (intuition congruence).
    + injection E as <-. split; [discriminate|]. intros Q. inversion Q; unfold other in *; try (intuition congruence).
Qed.

Lemma c129_itself_partial_proof : forall objects atom_eq rank x fuel,
  well_formed objects -> no_chain_of_records objects rank -> (forall a, atom_eq a a = true) -> S (rank x) < fuel ->
  equal objects atom_eq fuel x x = Some true.
Proof.
  intros objects atom_eq rank x fuel [_ WD] NC RE. revert x. induction fuel as [|n IH]; intros x Hx; [lia|].
  assert (K : forall y, ~ is_record objects y -> forall m, equal objects atom_eq (S m) y y = Some true).
  { intros y Hy m. cbn [equal]. destruct (nth_error objects y) as [[|xs|xs|kvs|c fs]|] eqn:E; auto; try now rewrite RE.
    - rewrite Nat.eqb_refl. apply all_equal_same. intros a _. unfold element_equal. now rewrite Nat.eqb_refl.
    - rewrite all_equal_same by (intros a _; unfold element_equal; now rewrite Nat.eqb_refl). cbn. now rewrite Nat.eqb_refl.
    - rewrite Nat.eqb_refl. apply items_equal_same; auto. eapply WD; eassumption.
    - destruct Hy. now exists c, fs. }
  destruct (nth_error objects x) as [[|xs|xs|kvs|c fs]|] eqn:E; try (apply K; intros (c' & fs' & H); congruence).
  cbn [equal]. rewrite E, Nat.eqb_refl. apply all_equal_same. intros y Hy.
  destruct (nth_error objects y) as [[|xs|xs|kvs|c' fs']|] eqn:Ey; try (destruct n; [lia|]; apply K; intros (c0 & fs0 & H); congruence).
  apply IH. assert (rank y < rank x); [|lia].
  apply NC; [now exists c, fs|now exists c', fs'|]. exists (NRec c fs). auto.
Qed.

Lemma c129_itself_refuted_proof : forall objects atom_eq x y c j k fs gs,
  nth_error objects x = Some (NRec c ((j, x) :: fs)) -> nth_error objects y = Some (NRec c ((k, y) :: gs)) ->
  forall fuel, equal objects atom_eq fuel x x = None /\ equal objects atom_eq fuel x y = None.
Proof.
  intros objects atom_eq x y c j k fs gs Hx Hy. induction fuel as [|n [IH1 IH2]]; [split; reflexivity|].
  cbn [equal]. rewrite Hx, Hy, Nat.eqb_refl. cbn [map snd all_equal]. now rewrite IH1, IH2.
Qed.
