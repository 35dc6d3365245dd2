(** Tags_main.v -- proofs of the properties stated in Props_Tags.v: Theorems about tags: C124 *)

From Verif Require Import Base Dict_proofs Filler Classes Runtime Record Tags Spec_Tags.
Local Open Scope string_scope.

Section Sets.
Context {tag obj : Type} (K : TagWorld tag obj) (HL : lawful K).

Lemma tag_eq_same a b : tag_eq K a b = true <-> same_tag K a b.
Proof.
  unfold tag_eq, same_tag. rewrite andb_true_iff, Nat.eqb_eq. intuition congruence.
Qed.

Lemma same_refl a : same_tag K a a.
Proof. split; auto. apply (law_refl K HL). Qed.
Lemma same_sym a b : same_tag K a b -> same_tag K b a.
Proof. intros [? ?]. split; auto. now apply (law_sym K HL). Qed.
Lemma same_trans a b c : same_tag K a b -> same_tag K b c -> same_tag K a c.
Proof. intros [? ?] [? ?]. split; [congruence|]. eapply (law_trans K HL); eauto. Qed.

Lemma item_eq_refl i : item_eq K i i = true.
Proof. destruct i; cbn; [apply tag_eq_same, same_refl | apply (law_refl K HL)]. Qed.
Lemma item_eq_sym i j : item_eq K i j = true -> item_eq K j i = true.
Proof.
  destruct i, j; cbn; auto.
  - rewrite !tag_eq_same. apply same_sym.
  - apply (law_sym K HL).
Qed.
Lemma item_eq_trans i j k : item_eq K i j = true -> item_eq K j k = true -> item_eq K i k = true.
Proof.
  destruct i, j, k; cbn; auto; try discriminate.
  - rewrite !tag_eq_same. apply same_trans.
  - apply (law_trans K HL).
Qed.
Lemma item_is_eq i j : item_is K i j = true -> i = j.
Proof.
  destruct i, j; cbn; try discriminate.
  - destruct (tag_is K t t0); congruence.
  - destruct (obj_is K o o0); congruence.
Qed.
Lemma item_hash_eq i j h h' : item_eq K i j = true -> item_hash K i = Ok h -> item_hash K j = Ok h' -> h = h'.
Proof.
  unfold item_hash. destruct i as [a|o], j as [b|p]; cbn; try discriminate.
  - rewrite tag_eq_same. intros [_ E]. unfold tag_hash.
    destruct (obj_hash K (held K a)) eqn:A; [|discriminate]. destruct (obj_hash K (held K b)) eqn:B; [|discriminate].
    intros [= <-] [= <-]. eapply (law_hash K HL); eauto.
  - intros E. destruct (obj_hash K o) eqn:A; [|discriminate]. destruct (obj_hash K p) eqn:B; [|discriminate].
    intros [= <-] [= <-]. eapply (law_hash K HL); eauto.
Qed.

(** entries know their hash *)
Definition fine (s : @pyset tag obj) : Prop := forall h i, In (h, i) s -> item_hash K i = Ok h.
(** something in the set is equal to this *)
Definition has (s : @pyset tag obj) (k : item tag obj) : Prop := exists h i, In (h, i) s /\ item_eq K i k = true.

Lemma holds_has s h k : fine s -> item_hash K k = Ok h -> (holds K s h k = true <-> has s k).
Proof.
  intros F Hk. unfold holds, has. rewrite existsb_exists. split.
  - intros ([h' i] & Hi & E). cbn in E. apply andb_true_iff in E as [_ E]. exists h', i. split; auto.
    apply orb_true_iff in E as [E|E]; auto. apply item_is_eq in E as ->. apply item_eq_refl.
  - intros (h' & i & Hi & E). exists (h', i). split; auto. cbn.
    rewrite E, orb_true_r, andb_true_r. apply Z.eqb_eq. eapply item_hash_eq; eauto.
Qed.

Lemma set_add_has s k s' : fine s -> set_add K s k = Ok s' -> fine s' /\ forall x, has s' x <-> has s x \/ item_eq K k x = true.
Proof.
  unfold set_add, obind. intros F. destruct (item_hash K k) as [h|] eqn:Hk; [|discriminate]. intros [= <-].
  destruct (holds K s h k) eqn:E.
  - split; auto. intros x. split; auto. intros [H|H]; auto.
    apply (holds_has s h k F Hk) in E as (h' & i & Hi & Ei). exists h', i. split; auto. eapply item_eq_trans; eauto.
  - split.
    + intros h' i Hi. apply in_app_or in Hi as [Hi|[[= <- <-]|[]]]; auto.
    + intros x. split.
      * intros (h' & i & Hi & Ei). apply in_app_or in Hi as [Hi|[[= <- <-]|[]]]; auto. left. exists h', i. auto.
      * intros [(h' & i & Hi & Ei)|Ei].
        -- exists h', i. split; auto. apply in_or_app; auto.
        -- exists h, k. split; auto. apply in_or_app. right. now left.
Qed.

Lemma set_of_has l : forall s s', fine s -> set_of K s l = Ok s' ->
  fine s' /\ forall x, has s' x <-> has s x \/ exists k, In k l /\ item_eq K k x = true.
Proof.
  induction l as [|k l IH]; intros s s' F H; cbn in H.
  - injection H as <-. split; auto. intros x. split; auto. intros [?|(? & [] & _)]; auto.
  - unfold obind in H. destruct (set_add K s k) as [s1|] eqn:E; [|discriminate].
    apply set_add_has in E as [F1 E]; auto. apply IH in H as [F2 H]; auto. split; auto.
    intros x. rewrite H, E. split.
    + intros [[?|?]|(q & ? & ?)]; auto; right; [exists k | exists q]; cbn; auto.
    + intros [?|(q & [<-|Hq] & ?)]; auto. right. exists q. auto.
Qed.

Lemma fine_nil : fine [].
Proof. intros ? ? []. Qed.
Lemma has_nil x : ~ has [] x.
Proof. intros (? & ? & [] & _). Qed.

Lemma field_tags_set ms : forall s, field_tags K s ms = set_of K s (flat_map (fun m => match m with MTag t => [ITag t] | MOther => [] end) ms).
Proof.
  induction ms as [|[t|] ms IH]; intros s.
  - reflexivity.
  - cbn [field_tags flat_map app set_of]. unfold obind. destruct (set_add K s (ITag t)); auto.
  - cbn [field_tags flat_map app]. apply IH.
Qed.

Lemma field_tags_has ms s : field_tags K [] ms = Ok s ->
  fine s /\ (forall t, has s (ITag t) <-> marked K ms t) /\ (forall o, ~ has s (IObj o)).
Proof.
  rewrite field_tags_set. intros H. apply set_of_has in H as [F H]; [|apply fine_nil]. split; auto. split.
  - intros t. rewrite H. split.
    + intros [Hn|(k & Hk & E)]; [now apply has_nil in Hn|].
      apply in_flat_map in Hk as ([a|] & Ha & Hk); [|now destruct Hk]. destruct Hk as [<-|[]].
      exists a. split; auto. now apply tag_eq_same.
    + intros (a & Ha & E). right. exists (ITag a). split; [|now apply tag_eq_same].
      apply in_flat_map. exists (MTag a). split; auto. now left.
  - intros o Ho. apply H in Ho as [Hn|(k & Hk & E)]; [now apply has_nil in Hn|].
    apply in_flat_map in Hk as ([a|] & Ha & Hk); [|now destruct Hk]. destruct Hk as [<-|[]]. discriminate.
Qed.

Lemma meets_has a b : fine a -> fine b -> (meets K a b = true <-> exists x, has a x /\ has b x).
Proof.
  intros Fa Fb. unfold meets.
  assert (G : forall so other, fine so -> fine other ->
    (existsb (fun e => holds K so (fst e) (snd e)) other = true <-> exists x, has so x /\ has other x)).
  { intros so other Fs Fo. rewrite existsb_exists. split.
    - intros ([h i] & Hi & E). cbn in E. apply holds_has in E; auto. exists i. split; auto. exists h, i. split; auto. apply item_eq_refl.
    - intros (x & (h & i & Hi & Ei) & (h' & j & Hj & Ej)). exists (h', j). split; auto. cbn. apply holds_has; auto.
      exists h, i. split; auto. eapply item_eq_trans; eauto. now apply item_eq_sym. }
  destruct (Nat.ltb (List.length a) (List.length b)); rewrite G by auto; split; intros (x & ? & ?); exists x; auto.
Qed.

Lemma is_marked ms t : { marked K ms t } + { ~ marked K ms t }.
Proof.
  destruct (existsb (fun m => match m with MTag a => tag_eq K a t | MOther => false end) ms) eqn:E.
  - left. apply existsb_exists in E as ([a|] & Ha & E); [|discriminate]. exists a. split; auto. now apply tag_eq_same.
  - right. intros (a & Ha & Hs). assert (X : existsb (fun m => match m with MTag a => tag_eq K a t | MOther => false end) ms = true).
    { apply existsb_exists. exists (MTag a). split; auto. now apply tag_eq_same. }
    congruence.
Qed.

Lemma class_tags_each l : forall fs, class_tags K l = Ok fs ->
  Forall2 (fun kl kf => fst kf = fst kl /\ field_tags K [] (snd kl) = Ok (snd kf)) l fs.
Proof.
  induction l as [|[k ms] l IH]; intros fs H; cbn in H.
  - injection H as <-. constructor.
  - unfold obind in H. destruct (field_tags K [] ms) as [s|] eqn:E; [|discriminate].
    destruct (class_tags K l) as [r|]; [|discriminate]. injection H as <-. constructor; cbn; auto.
Qed.

Lemma meets_marked ms s items b : field_tags K [] ms = Ok s -> set_of K [] items = Ok b ->
  (meets K s b = true <-> exists t, In (ITag t) items /\ marked K ms t).
Proof.
  intros Hs Hb. apply field_tags_has in Hs as (Fs & Ht & Ho). apply set_of_has in Hb as [Fb Hb]; [|apply fine_nil].
  rewrite meets_has by auto. split.
  - intros ([t|o] & H1 & H2); [|now apply Ho in H1].
    apply Hb in H2 as [Hn|(k & Hk & E)]; [now apply has_nil in Hn|]. destruct k as [t'|]; [|discriminate].
    exists t'. split; auto. apply Ht in H1 as (a & Ha & Hs). exists a. split; auto. eapply same_trans; eauto.
    apply same_sym. now apply tag_eq_same.
  - intros (t & Hi & Hm). exists (ITag t). split; [now apply Ht|]. apply Hb. right. exists (ITag t). split; auto. apply item_eq_refl.
Qed.
End Sets.

Lemma c124_equality_proof : forall {tag obj} (K : TagWorld tag obj), lawful K ->
  (forall a b, tag_eq K a b = true <-> same_tag K a b) /\
  (forall a, tag_eq K a a = true) /\
  (forall a b, tag_eq K a b = true -> tag_eq K b a = true) /\
  (forall a b c, tag_eq K a b = true -> tag_eq K b c = true -> tag_eq K a c = true) /\
  (forall a b h h', tag_eq K a b = true -> tag_hash K a = Some h -> tag_hash K b = Some h' -> h = h').
Proof.
  intros tag obj K HL. split; [|split; [|split; [|split]]].
  - apply tag_eq_same.
  - intros a. apply (item_eq_refl K HL (ITag a)).
  - intros a b. apply (item_eq_sym K HL (ITag a) (ITag b)).
  - intros a b c. apply (item_eq_trans K HL (ITag a) (ITag b) (ITag c)).
  - intros a b h h' E Ha Hb. apply (item_hash_eq K HL (ITag a) (ITag b) h h' E); cbn; unfold item_hash; now rewrite ?Ha, ?Hb.
Qed.

Lemma c124_filter_proof : forall {tag obj} (K : TagWorld tag obj) l fs t names, lawful K ->
  class_tags K l = Ok fs -> fields_with K fs t = Ok names ->
  exists p, (forall ms, p ms = true <-> marked K ms t) /\ names = keys (filter (fun kl => p (snd kl)) l).
Proof.
  intros tag obj K l fs t names HL Hc Hf.
  exists (fun ms => if is_marked K ms t then true else false). split.
  - intros ms. destruct (is_marked K ms t); split; auto; discriminate.
  - apply class_tags_each in Hc. revert names Hf.
    induction Hc as [|[k ms] [k' s] l fs [Hk Hs] _ IH]; cbn in *; intros names Hf.
    + now injection Hf as <-.
    + subst k'. unfold obind in Hf. unfold set_contains, obind in Hf.
      destruct (item_hash K (ITag t)) as [h|] eqn:Hh; [|discriminate].
      destruct (fields_with K fs t) as [r|]; [|discriminate]. injection Hf as <-.
      specialize (IH r eq_refl). apply (field_tags_has K HL) in Hs as (F & Ht & _).
      pose proof (holds_has K HL s h (ITag t) F Hh) as E. rewrite Ht in E.
      destruct (is_marked K ms t) as [M|M], (holds K s h (ITag t)); cbn [keys map fst]; try (f_equal; assumption); auto;
        exfalso; intuition discriminate.
Qed.

Lemma c124_blacklist_proof : forall {tag obj} (K : TagWorld tag obj) l fs white items b names, lawful K ->
  class_tags K l = Ok fs ->
  (exists s, set_of K [] items = Ok s /\ b = SetOf s) \/ (exists t, items = [ITag t] /\ b = OneTag t) ->
  exported K fs white b = Ok names ->
  exists p, (forall k ms, p (k, ms) = true <-> In k white \/ ~ exists t, In (ITag t) items /\ marked K ms t) /\
            names = keys (filter p l).
Proof.
  intros tag obj K l fs white items b names HL Hc Hb He.
  assert (Hs : exists s, set_of K [] items = Ok s /\ names = keys (filter (fun kf => smem (fst kf) white || negb (meets K (snd kf) s)) fs)).
  { unfold exported, obind in He. destruct (blacklist_set K b) as [s|] eqn:E; [|discriminate]. injection He as <-.
    exists s. split; auto. destruct Hb as [(s' & Hs & ->)|(t & -> & ->)]; cbn in E; auto. congruence. }
  destruct Hs as (s & Hs & ->). clear He Hb.
  assert (D : forall ms, {exists t, In (ITag t) items /\ marked K ms t} + {~ exists t, In (ITag t) items /\ marked K ms t}).
  { intros ms. clear. induction items as [|[t|o] items IH].
    - right. intros (t & [] & _).
    - destruct (is_marked K ms t).
      + left. exists t. split; auto. now left.
      + destruct IH as [IH|IH].
        * left. destruct IH as (t' & ? & ?). exists t'. split; auto. now right.
        * right. intros (t' & [[= <-]|?] & ?); auto. apply IH. now exists t'.
    - destruct IH as [IH|IH].
      + left. destruct IH as (t' & ? & ?). exists t'. split; auto. now right.
      + right. intros (t' & [?|?] & ?); [discriminate|]. apply IH. now exists t'. }
  exists (fun kl => smem (fst kl) white || if D (snd kl) then false else true). split.
  - intros k ms. cbn. rewrite orb_true_iff, smem_In. destruct (D ms); split; intros [?|?]; auto; try discriminate; contradiction.
  - apply class_tags_each in Hc. induction Hc as [|[k ms] [k' s'] l fs [Hk Hf] _ IH]; cbn in *; auto.
    subst k'. pose proof (meets_marked K HL ms s' items s Hf Hs) as E.
    destruct (D ms) as [M|M], (meets K s' s); cbn; try (exfalso; intuition discriminate);
      destruct (smem k white); cbn; unfold keys in *; rewrite ?IH; reflexivity.
Qed.

Lemma c124_hashable_proof : forall {tag obj} (K : TagWorld tag obj) l t,
  (forall k ms a, In (k, ms) l -> In (MTag a) ms -> hashable K a) -> hashable K t ->
  exists fs names names', class_tags K l = Ok fs /\ fields_with K fs t = Ok names /\
    forall white, exported K fs white (OneTag t) = Ok (names' white).
Proof.
  intros tag obj K l t Hl (ht & Ht).
  assert (A : forall s a, hashable K a -> exists s', set_add K s (ITag a) = Ok s').
  { intros s a (h & Ha). unfold set_add, item_hash, tag_hash, obind. rewrite Ha. eauto. }
  assert (F : forall ms s, (forall a, In (MTag a) ms -> hashable K a) -> exists s', field_tags K s ms = Ok s').
  { induction ms as [|[a|] ms IH]; intros s H; cbn.
    - eauto.
    - destruct (A s a) as (s1 & E); [apply H; now left|]. rewrite E. cbn. apply IH. intros. apply H. now right.
    - apply IH. intros. apply H. now right. }
  assert (C : exists fs, class_tags K l = Ok fs).
  { induction l as [|[k ms] l IH]; cbn; eauto. destruct (F ms []) as (s & E); [intros a Ha; apply (Hl k ms a); [now left | exact Ha]|].
    destruct IH as (fs & Ef); [intros k' ms' a H1 H2; apply (Hl k' ms' a); [now right | exact H2]|]. rewrite E. cbn. rewrite Ef. cbn. eauto. }
  destruct C as (fs & Hc).
  assert (W : exists names, fields_with K fs t = Ok names).
  { clear Hc. induction fs as [|[k s] fs [r IH]]; cbn; eauto.
    unfold set_contains, item_hash, tag_hash. rewrite Ht. cbn. rewrite IH. cbn. eauto. }
  destruct W as (names & Hn). destruct (A [] t) as (s & Es); [now exists ht|].
  exists fs, names. eexists (fun white => _). repeat split; auto. intros white.
  unfold exported, blacklist_set. cbn. rewrite Es. cbn. reflexivity.
Qed.

Lemma c124_unhashable_proof : forall {tag obj} (K : TagWorld tag obj) ms s a,
  In (MTag a) ms -> obj_hash K (held K a) = None ->
  exists m, field_tags K s ms = Raise (mkexc TypeError m).
Proof.
  intros tag obj K ms s a. revert s. induction ms as [|m ms IH]; intros s [] Ha.
  - subst. cbn. unfold set_add, item_hash, tag_hash, obind. rewrite Ha. eauto.
  - destruct m as [t|]; cbn; auto. unfold set_add, item_hash at 1, tag_hash, obind.
    destruct (obj_hash K (held K t)); [|eauto]. auto.
Qed.

Lemma c124_nan_refuted_proof : forall {tag obj} (K : TagWorld tag obj) a b x h k,
  obj_eq K x x = false -> obj_hash K x = Some h -> held K a = x -> held K b = x -> kind K a = kind K b -> a <> b ->
  exists fs, class_tags K [(k, [MTag a])] = Ok fs /\
    fields_with K fs a = Ok [k] /\ fields_with K fs b = Ok [] /\
    exported K fs [] (OneTag a) = Ok [] /\ exported K fs [] (OneTag b) = Ok [k].
Proof.
  intros tag obj K a b x h k E H Ha Hb Hk Hn. exists [(k, [(h, ITag a)])].
  assert (Ea : item_hash K (ITag a) = Ok h) by (unfold item_hash, tag_hash; now rewrite Ha, H).
  assert (Eb : item_hash K (ITag b) = Ok h) by (unfold item_hash, tag_hash; now rewrite Hb, H).
  assert (Ia : item_is K (ITag a) (ITag a) = true) by (cbn; now destruct (tag_is K a a)).
  assert (Iab : item_is K (ITag a) (ITag b) = false) by (cbn; now destruct (tag_is K a b)).
  assert (Iba : item_is K (ITag b) (ITag a) = false) by (cbn; destruct (tag_is K b a); congruence).
  assert (Qab : item_eq K (ITag a) (ITag b) = false) by (cbn; unfold tag_eq; now rewrite Ha, Hb, E, andb_false_r).
  assert (Qba : item_eq K (ITag b) (ITag a) = false) by (cbn; unfold tag_eq; now rewrite Ha, Hb, E, andb_false_r).
  split; [|split; [|split; [|split]]].
  - cbn [class_tags field_tags]. unfold set_add. rewrite Ea. reflexivity.
  - cbn [fields_with]. unfold set_contains. rewrite Ea. cbn. rewrite Z.eqb_refl.
    change (if tag_is K a a then true else false) with (item_is K (ITag a) (ITag a)). now rewrite Ia.
  - cbn [fields_with]. unfold set_contains. rewrite Eb. cbn [obind holds existsb fst snd]. rewrite Iab, Qab.
    now rewrite andb_false_r.
  - unfold exported. cbn [blacklist_set set_of]. unfold set_add. rewrite Ea. cbn [obind holds existsb app].
    cbn [filter fst snd smem existsb orb]. unfold meets. cbn [List.length Nat.ltb Nat.leb existsb holds fst snd].
    rewrite Z.eqb_refl, Ia. reflexivity.
  - unfold exported. cbn [blacklist_set set_of]. unfold set_add. rewrite Eb. cbn [obind holds existsb app].
    cbn [filter fst snd smem existsb orb]. unfold meets. cbn [List.length Nat.ltb Nat.leb existsb holds fst snd].
    rewrite Z.eqb_refl, Iab, Qab. reflexivity.
Qed.

(** the marks as Classes.v has them: tags by number *)
Definition arg_of {tag obj ty W} (num : tag -> nat) (m : mark tag) : @arg obj ty W :=
  match m with MTag t => ATag (num t) | MOther => ATok TOther end.

Lemma add_tag_In ts n x : In x (add_tag ts n) <-> In x ts \/ x = n.
Proof.
  unfold add_tag. destruct (existsb (Nat.eqb n) ts) eqn:E.
  - split; auto. intros [?| ->]; auto. apply existsb_exists in E as (y & Hy & E). apply Nat.eqb_eq in E. now subst.
  - rewrite in_app_iff. cbn. intuition.
Qed.
Lemma add_tags_In {tag obj ty W} (num : tag -> nat) (ms : list (mark tag)) : forall ts x,
  In x (@add_tags obj ty W (map (arg_of num) ms) ts) <-> In x ts \/ exists t, In (MTag t) ms /\ num t = x.
Proof.
  unfold add_tags. induction ms as [|[t|] ms IH]; intros ts x; cbn [map fold_left arg_of].
  - split; auto. intros [?|(? & [] & _)]; auto.
  - rewrite IH, add_tag_In. split.
    + intros [[?| ->]|(q & ? & ?)]; auto; right; [exists t|exists q]; cbn; auto.
    + intros [?|(q & [[= <-]|?] & ?)]; auto. right. exists q. auto.
  - rewrite IH. split.
    + intros [?|(q & ? & ?)]; auto. right; exists q; cbn; auto.
    + intros [?|(q & [?|?] & ?)]; auto; [discriminate|]. right. exists q. auto.
Qed.
Lemma existsb_In ts n : existsb (Nat.eqb n) ts = true <-> In n ts.
Proof.
  rewrite existsb_exists. split.
  - intros (y & Hy & E). apply Nat.eqb_eq in E. now subst.
  - intros H. exists n. split; auto. apply Nat.eqb_refl.
Qed.

Lemma c124_numbers_proof : forall {tag obj o ty W} (K : TagWorld tag obj) num ms s t items b name d white,
  lawful K -> numbering K num ->
  field_tags K [] ms = Ok s -> set_of K [] items = Ok b ->
  let ts := @add_tags o ty W (map (arg_of num) ms) [] in
  let black := flat_map (fun i => match i with ITag t => [num t] | IObj _ => [] end) items in
  (forall r, set_contains K s (ITag t) = Ok r -> existsb (Nat.eqb (num t)) ts = r) /\
  @export_field o W (ExportArgs false SortNone (BlackSet black) white) (XField name ts d)
    = Ok (smem name white || negb (meets K s b)).
Proof.
  intros tag obj o ty W K num ms s t items b name d white HL Hn Hs Hb ts black.
  assert (Hm : forall t, In (num t) ts <-> marked K ms t).
  { intros t'. unfold ts. rewrite add_tags_In. split.
    - intros [[]|(a & Ha & E)]. exists a. split; auto. now apply Hn.
    - intros (a & Ha & E). right. exists a. split; auto. now apply Hn. }
  split.
  - intros r. unfold set_contains, obind. destruct (item_hash K (ITag t)) as [h|] eqn:Hh; [|discriminate]. intros [= <-].
    destruct (field_tags_has K HL ms s Hs) as (F & Ht & _).
    apply eq_true_iff_eq. rewrite existsb_In, Hm, (holds_has K HL) by auto. now rewrite Ht.
  - unfold export_field. cbn [x_name x_tags e_white e_black]. destruct (smem name white); [reflexivity|]. cbn [orb]. do 2 f_equal.
    apply eq_true_iff_eq. rewrite (meets_marked K HL ms s items b Hs Hb), existsb_exists. split.
    + intros (x & Hx & E). apply existsb_In in E. unfold black in E. apply in_flat_map in E as ([t'|o'] & Hi & E); [|destruct E].
      destruct E as [<-|[]]. exists t'. split; auto. now apply Hm.
    + intros (t' & Hi & M). exists (num t'). split; [now apply Hm|]. apply existsb_In. apply in_flat_map. exists (ITag t'). split; auto. now left.
Qed.
