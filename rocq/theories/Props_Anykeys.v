(** Props_Anykeys.v -- property theorems: mappings with keys of any kind (records/select.py:8-143, records/record.py:431-449)
    Each theorem is closed by the lemma of the same statement in Anykeys_main.v; the examples
    show that concrete, non-trivial cases meet the hypotheses. *)

From Verif Require Import Base Py Select Filler Classes Runtime Record Spec_Record Anykeys Spec_Anykeys Demo DemoRt DemoCls.
From Verif Require Dict_proofs Record_proofs.
Open Scope string_scope.
Open Scope list_scope.

From Verif Require Import Anykeys_main.

(** C151: on mappings with keys of any kind a Select does what it does on mappings with
    strings: the documented edits, one after the other.  Excepted are Selects whose first key
    to remove is None. *)
Theorem c151_select : forall {K A} (keq : K -> K -> bool) is_none show (s : ksel K A) d,
  key_equality keq -> distinct keq (map fst d) -> ~ begins_with_none is_none s ->
  match kcall keq is_none show s d with
  | Ok d' => distinct keq (map fst d') /\
             exists m, key_edits keq (edits_of s) (value_of keq d) = Done m /\ forall k, value_of keq d' k = m k
  | Raise e => (key_edits keq (edits_of s) (value_of keq d) = Missing /\ exc_cls e = KeyError) \/
               (key_edits keq (edits_of s) (value_of keq d) = Occupied /\ exc_cls e = ValueError)
  end.
Proof. exact (@c151_select_proof). Qed.
Print Assumptions c151_select.

(** C151: from_mapping takes mappings with keys of any kind: the mappings are combined, the
    first one that has a key counting, and the Select is applied.  If all keys are strings now
    the record is made from them; otherwise there is a TypeError, and nothing has happened. *)
Theorem c151_from_mapping : forall {obj ty W} (R : Rt obj ty W) {K} (keq : K -> K -> bool) is_none text show n c s maps kw,
  key_equality keq -> texts_agree keq text ->
  exists d, distinct keq (map fst d) /\ (forall k, value_of keq d k = first_value keq (maps ++ [kw]) k) /\
  forall w,
  match kcall keq is_none show s d with
  | Raise e => kfrom_mapping R keq is_none text show n c s maps kw w = (Raise e, w)
  | Ok d' =>
      (exists k, In k (map fst d') /\ text k = None) /\
        (exists e, kfrom_mapping R keq is_none text show n c s maps kw w = (Raise e, w) /\ exc_cls e = TypeError) \/
      exists d'', Forall2 (fun kv sv => text (fst kv) = Some (fst sv) /\ snd kv = snd sv) d' d'' /\ dict_ok d'' /\
        kfrom_mapping R keq is_none text show n c s maps kw w = construct R n c None d'' w
  end.
Proof. exact (@c151_from_mapping_proof). Qed.
Print Assumptions c151_from_mapping.

(** C151: so a record can only be made from a mapping with a key that is not a string if the
    Select removes that key or renames it. *)
Theorem c151_accounted : forall {obj ty W} (R : Rt obj ty W) {K} (keq : K -> K -> bool) is_none text show n c s maps kw w r w' m k,
  key_equality keq -> texts_agree keq text ->
  kfrom_mapping R keq is_none text show n c s maps kw w = (Ok r, w') ->
  In m maps -> In k (map fst m) -> text k = None ->
  exists k', In k' (taken s) /\ keq k k' = true.
Proof. exact (@c151_accounted_proof). Qed.
Print Assumptions c151_accounted.

(** C151, refuted: a Select that is to remove None first, and adds nothing, does nothing at all;
    merging it with another Select gives that Select; and a mapping with the key None (the rows
    of csv.DictReader can have it) cannot be imported with it. *)
Theorem c151_none_refuted : forall {obj ty W} (R : Rt obj ty W) {K} (keq : K -> K -> bool) is_none text show n c (s t : ksel K obj) maps kw w m k,
  key_equality keq -> texts_agree keq text -> begins_with_none is_none s ->
  (forall d, kcall keq is_none show s d = Ok d) /\
  kmerge is_none s t = t /\ (forall d, kcall keq is_none show (kmerge is_none t s) d = kcall keq is_none show t d) /\
  (In m maps -> In k (map fst m) -> text k = None ->
   exists e, kfrom_mapping R keq is_none text show n c s maps kw w = (Raise e, w) /\ exc_cls e = TypeError).
Proof. exact (@c151_none_refuted_proof). Qed.
Print Assumptions c151_none_refuted.

(** C151: merging two Selects, neither of which begins with None, gives one with the edits of
    both, for each kind of edit those of the first Select first. *)
Theorem c151_merge : forall {K A} (is_none : K -> bool) (s t : ksel K A),
  ~ begins_with_none is_none s -> ~ begins_with_none is_none t ->
  let m := kmerge is_none s t in
  ~ begins_with_none is_none m /\
  ks_rem m = ks_rem s ++ ks_rem t /\ ks_mrem m = ks_mrem s ++ ks_mrem t /\ ks_ren m = ks_ren s ++ ks_ren t /\
  ks_mren m = ks_mren s ++ ks_mren t /\ ks_add m = ks_add s ++ ks_add t /\ ks_madd m = ks_madd s ++ ks_madd t.
Proof. exact (@c151_merge_proof). Qed.
Print Assumptions c151_merge.

(** C151: for every Select and mapping one can give strings to the keys, equal strings exactly
    to equal keys, such that the Select does the same on the mapping with these strings.  So
    all that C42 to C48 say about Selects holds for keys of any kind. *)
Theorem c151_transfer : forall {K A} (keq : K -> K -> bool) is_none show (s : ksel K A) d,
  key_equality keq -> ~ begins_with_none is_none s ->
  exists name : K -> string,
    (forall a b, In a (all_keys s d) -> In b (all_keys s d) -> (name a = name b <-> keq a b = true)) /\
    match kcall keq is_none show s d, sel_apply (relabel_select name s) (relabel name d) with
    | Ok d', Ok r => r = relabel name d'
    | Raise e, Raise e' => exc_cls e = exc_cls e'
    | _, _ => False
    end.
Proof. exact (@c151_transfer_proof). Qed.
Print Assumptions c151_transfer.

(** C151: on mappings with strings it is the from_mapping of the other theorems. *)
Theorem c151_strings : forall {obj ty W} (R : Rt obj ty W) n c (s : ksel string obj) maps ds kw w,
  Forall2 (is_mapping R) maps ds -> dict_ok kw ->
  (kfrom_mapping R String.eqb (fun _ => false) Some (fun k => k) n c s ds kw w =
   from_mapping R n c (relabel_select (fun k => k) s) maps kw w) \/
  exists e e', kfrom_mapping R String.eqb (fun _ => false) Some (fun k => k) n c s ds kw w = (Raise e, w) /\
    from_mapping R n c (relabel_select (fun k => k) s) maps kw w = (Raise e', w) /\ exc_cls e = exc_cls e'.
Proof. exact (@c151_strings_proof). Qed.
Print Assumptions c151_strings.

(** keys: texts, numbers, True (which is 1) and None *)
Inductive row_key := KText (t : string) | KNumber (z : Z) | KTrue | KNone.
Definition row_eq (a b : row_key) : bool :=
  match a, b with
  | KText s, KText t => String.eqb s t
  | KNumber x, KNumber y => Z.eqb x y
  | KTrue, KTrue | KNone, KNone => true
  | KTrue, KNumber z | KNumber z, KTrue => Z.eqb z 1
  | _, _ => false
  end.
Definition row_none (k : row_key) : bool := match k with KNone => true | _ => false end.
Definition row_text (k : row_key) : option string := match k with KText t => Some t | _ => None end.
Definition row_show (k : row_key) : string := match k with KText t => t | KNone => "None" | _ => "1" end.
Lemma row_equality : key_equality row_eq.
Proof.
  split; [|split].
  - intros [t|z| |]; simpl; auto using String.eqb_refl, Z.eqb_refl.
  - intros [s|x| |] [t|y| |]; simpl; try discriminate; try reflexivity; auto.
    + rewrite String.eqb_sym. auto.
    + rewrite Z.eqb_sym. auto.
  - intros [s|x| |] [t|y| |] [u|z| |]; simpl; try discriminate; try reflexivity; rewrite ?String.eqb_eq, ?Z.eqb_eq; intros; subst; auto.
Qed.
Lemma row_texts : texts_agree row_eq row_text.
Proof.
  split.
  - intros [s|x| |] [t|y| |]; simpl; try discriminate; try reflexivity. intros H. apply String.eqb_eq in H. subst. reflexivity.
  - intros [s|x| |] [t|y| |] u; simpl; try discriminate. intros A B. injection A as ->. injection B as ->. apply String.eqb_refl.
Qed.
Definition row_decl := rdecl 0 false false (Some false) SCheck [("x", (an TInt, NoDefault)); ("y", (an TInt, DefVal (DInt 0)))] [] no_post.
Definition row_w := RState [] [] [].
Definition row : kdict row_key dobj := [(KNumber 1, DInt 5); (KNone, DInt 8); (KText "y", DInt 6)].
Definition row_select := @KSel row_key dobj [] [] [KText "z"; KNone] [] [(KTrue, KText "x")] [].
(** the key 1 is renamed, although the Select says True, and None is removed after a text *)
Example c151_case :
  distinct row_eq (map fst row) /\ ~ begins_with_none row_none row_select /\
  kcall row_eq row_none row_show row_select ((KText "z", DInt 9) :: row) = Ok [(KText "y", DInt 6); (KText "x", DInt 5)] /\
  kfrom_mapping (demo_rt 0) row_eq row_none row_text row_show 1 (made_of row_decl) row_select [row] [(KText "z", DInt 0)] row_w =
    (Ok (DRef (TRec 0) 0), RState [] [Inst (TRec 0) [("y", DInt 6); ("x", DInt 5)] SUnset] []).
Proof.
  split; [repeat constructor; simpl; intros k [<-|[<-|[]]] || (intros k [<-|[]]) || intros k []; reflexivity|].
  split; [intros (_ & _ & k & r & H & HN); injection H as <- <-; discriminate|].
  split; vm_compute; reflexivity.
Qed.
(** None first: the Select does nothing, and the row cannot be imported *)
Example c151_none_case :
  let s := @KSel row_key dobj [] [] [] [KNone] [(KTrue, KText "x")] [] in
  begins_with_none row_none s /\ kcall row_eq row_none row_show s row = Ok row /\
  exists e, kfrom_mapping (demo_rt 0) row_eq row_none row_text row_show 1 (made_of row_decl) s [row] [] row_w = (Raise e, row_w) /\ exc_cls e = TypeError.
Proof.
  split; [repeat split; exists KNone, []; auto|]. split; [reflexivity|]. eexists. split; reflexivity.
Qed.
