(** Props_Tags.v -- property theorems: Theorems about tags: C124
    Each theorem is closed by the lemma of the same statement in Tags_main.v; the examples
    show that concrete, non-trivial cases meet the hypotheses. *)

From Verif Require Import Base Dict_proofs Filler Classes Runtime Record Tags Spec_Tags.
Local Open Scope string_scope.

From Verif Require Import Tags_main.

(** C124: equality of tags is an equivalence that hash respects: two tags are equal exactly if
    they are of the same class and hold equal objects. *)
Theorem c124_equality : forall {tag obj} (K : TagWorld tag obj), lawful K ->
  (forall a b, tag_eq K a b = true <-> same_tag K a b) /\
  (forall a, tag_eq K a a = true) /\
  (forall a b, tag_eq K a b = true -> tag_eq K b a = true) /\
  (forall a b c, tag_eq K a b = true -> tag_eq K b c = true -> tag_eq K a c = true) /\
  (forall a b h h', tag_eq K a b = true -> tag_hash K a = Some h -> tag_hash K b = Some h' -> h = h').
Proof. exact (@c124_equality_proof). Qed.
Print Assumptions c124_equality.

(** C124: filter_by_tag gives the fields that are marked with this tag or an equal one, in
    field order. *)
Theorem c124_filter : forall {tag obj} (K : TagWorld tag obj) l fs t names, lawful K ->
  class_tags K l = Ok fs -> fields_with K fs t = Ok names ->
  exists p, (forall ms, p ms = true <-> marked K ms t) /\ names = keys (filter (fun kl => p (snd kl)) l).
Proof. exact (@c124_filter_proof). Qed.
Print Assumptions c124_filter.

(** C124: blacklist_tags excludes the fields that are marked with a tag equal to one of those
    given, unless they are whitelisted; a single tag stands for the set of it.  Objects in the
    set that are not tags exclude nothing. *)
Theorem c124_blacklist : forall {tag obj} (K : TagWorld tag obj) l fs white items b names, lawful K ->
  class_tags K l = Ok fs ->
  (exists s, set_of K [] items = Ok s /\ b = SetOf s) \/ (exists t, items = [ITag t] /\ b = OneTag t) ->
  exported K fs white b = Ok names ->
  exists p, (forall k ms, p (k, ms) = true <-> In k white \/ ~ exists t, In (ITag t) items /\ marked K ms t) /\
            names = keys (filter p l).
Proof. exact (@c124_blacklist_proof). Qed.
Print Assumptions c124_blacklist.

(** C124: all of this succeeds if the objects that the tags hold can be hashed. *)
Theorem c124_hashable : forall {tag obj} (K : TagWorld tag obj) l t,
  (forall k ms a, In (k, ms) l -> In (MTag a) ms -> hashable K a) -> hashable K t ->
  exists fs names names', class_tags K l = Ok fs /\ fields_with K fs t = Ok names /\
    forall white, exported K fs white (OneTag t) = Ok (names' white).
Proof. exact (@c124_hashable_proof). Qed.
Print Assumptions c124_hashable.

(** C124: a field marked with a tag whose object cannot be hashed makes the class statement
    fail, with TypeError. *)
Theorem c124_unhashable : forall {tag obj} (K : TagWorld tag obj) ms s a,
  In (MTag a) ms -> obj_hash K (held K a) = None ->
  exists m, field_tags K s ms = Raise (mkexc TypeError m).
Proof. exact (@c124_unhashable_proof). Qed.
Print Assumptions c124_unhashable.

(** C124 does not hold for objects that are not equal to themselves (float('nan')): a tag that
    holds the very same object does not find the field. *)
Theorem c124_nan_refuted : forall {tag obj} (K : TagWorld tag obj) a b x h k,
  obj_eq K x x = false -> obj_hash K x = Some h -> held K a = x -> held K b = x -> kind K a = kind K b -> a <> b ->
  exists fs, class_tags K [(k, [MTag a])] = Ok fs /\
    fields_with K fs a = Ok [k] /\ fields_with K fs b = Ok [] /\
    exported K fs [] (OneTag a) = Ok [] /\ exported K fs [] (OneTag b) = Ok [k].
Proof. exact (@c124_nan_refuted_proof). Qed.
Print Assumptions c124_nan_refuted.

(** C124: so tags may be known by number, as in Classes.v and Record.v: whatever numbers they
    are given, as long as equal tags and only those have equal numbers, filter_by_tag and the
    blacklist decide as with the tags themselves. *)
Theorem c124_numbers : forall {tag obj o ty W} (K : TagWorld tag obj) num ms s t items b name d white,
  lawful K -> numbering K num ->
  field_tags K [] ms = Ok s -> set_of K [] items = Ok b ->
  let ts := @add_tags o ty W (map (arg_of num) ms) [] in
  let black := flat_map (fun i => match i with ITag t => [num t] | IObj _ => [] end) items in
  (forall r, set_contains K s (ITag t) = Ok r -> existsb (Nat.eqb (num t)) ts = r) /\
  @export_field o W (ExportArgs false SortNone (BlackSet black) white) (XField name ts d)
    = Ok (smem name white || negb (meets K s b)).
Proof. exact (@c124_numbers_proof). Qed.
Print Assumptions c124_numbers.

(** Tags that hold numbers, compared modulo 10 (as 1, 1.0 and True are), with hashes modulo 5 so
    that different tags collide; kind 1 is a subclass of Tag; numbers from 100 on cannot be hashed. *)
Definition pair_dec (a b : nat * nat) : {a = b} + {a <> b}.
Proof. destruct a as [a1 a2], b as [b1 b2]. destruct (Nat.eq_dec a1 b1) as [->|N]; [|right; congruence]. destruct (Nat.eq_dec a2 b2) as [->|N]; [now left | right; congruence]. Defined.
Definition demo_tags : TagWorld (nat * nat) nat := {|
  tag_is := pair_dec; obj_is := Nat.eq_dec;
  kind := fst; held := snd;
  obj_eq := fun x y => Nat.eqb (Nat.modulo x 10) (Nat.modulo y 10);
  obj_hash := fun x => if Nat.ltb x 100 then Some (Z.of_nat (Nat.modulo (Nat.modulo x 10) 5)) else None
|}.

Example demo_tags_lawful : lawful demo_tags.
Proof.
  constructor; cbn -[Nat.ltb Nat.modulo Z.of_nat].
  - intros x. apply Nat.eqb_refl.
  - intros x y. rewrite !Nat.eqb_eq. congruence.
  - intros x y z. rewrite !Nat.eqb_eq. congruence.
  - intros x y h h' E. apply Nat.eqb_eq in E. rewrite E. destruct (Nat.ltb x 100), (Nat.ltb y 100); congruence.
Qed.

(** a: Annotated[.., Tag(1), Tag(6)], b: Annotated[.., Sub(1)], c: Annotated[.., Tag(11)], d: no tags *)
Definition demo_marks : dict (list (mark (nat * nat))) :=
  [("a", [MTag (0, 1); MOther; MTag (0, 6)]); ("b", [MTag (1, 1)]); ("c", [MTag (0, 11)]); ("d", [])].

Example c124_case :
  exists fs, class_tags demo_tags demo_marks = Ok fs /\
  fields_with demo_tags fs (0, 21) = Ok ["a"; "c"] /\
  fields_with demo_tags fs (0, 6) = Ok ["a"] /\
  (exists m, fields_with demo_tags fs (0, 100) = Raise (mkexc TypeError m)) /\
  exported demo_tags fs ["c"] (OneTag (0, 21)) = Ok ["b"; "c"; "d"] /\
  (exists s, set_of demo_tags [] [IObj 1; ITag (1, 31); ITag (0, 16)] = Ok s /\ exported demo_tags fs [] (SetOf s) = Ok ["c"; "d"]).
Proof. eexists. split; [reflexivity|]. split; [reflexivity|]. split; [reflexivity|]. split; [eexists; reflexivity|]. split; [reflexivity|]. eexists; split; reflexivity. Qed.

Example c124_numbers_case : numbering demo_tags (fun t => 10 * fst t + Nat.modulo (snd t) 10).
Proof.
  intros [i x] [j y]. unfold same_tag. cbn -[Nat.modulo Nat.mul]. rewrite Nat.eqb_eq.
  pose proof (Nat.mod_upper_bound x 10 ltac:(discriminate)). pose proof (Nat.mod_upper_bound y 10 ltac:(discriminate)). lia.
Qed.
