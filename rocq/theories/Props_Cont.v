(** Props_Cont.v -- property theorems: C128: what becomes of a container whose elements are changed by its field
    Each theorem is closed by the lemma of the same statement in Cont_main.v; the examples
    show that concrete, non-trivial cases meet the hypotheses. *)

From Verif Require Import Base Py Filler Spec_Filler Demo Containers.
Open Scope string_scope.
Open Scope list_scope.

From Verif Require Import Cont_main.

(** Lists, tuples and deques in Deque fields: all elements are filled in order, and if one changed the
    field holds a new container of the class with the filled elements (and the same maxlen). *)
Theorem c128_sequences_partial : forall {obj W} (B : Builtins obj W) same rk elt v w,
  identity same ->
  (forall l, view B v = Some (CList l) ->
     validate_on_demand B same rk elt v w = all_filled same elt (fun l' => fresh B (CList l')) v l w) /\
  (forall l, view B v = Some (CTuple l) ->
     validate_on_demand B same rk elt v w = all_filled same elt (fun l' => fresh B (CTuple l')) v l w) /\
  (forall m l, view B v = Some (CDeque m l) -> match m with Some n => List.length l <= n | None => True end ->
     validate_on_demand B same RkDeque elt v w = all_filled same elt (fun l' => fresh B (CDeque m l')) v l w).
Proof. exact (@c128_sequences_partial_proof). Qed.
Print Assumptions c128_sequences_partial.

(** Sets and frozensets, if the filled elements can be hashed: the new one has all of them, one of
    those that are equal; so with collisions it has fewer elements than the old one. *)
Theorem c128_sets_partial : forall {obj W} (B : Builtins obj W) same rk elt v w,
  identity same -> (forall x w y w', elt x w = (Ok y, w') -> hashable B y = true) ->
  exists kept,
    (forall l, view B v = Some (CSet l) ->
       validate_on_demand B same rk elt v w = all_filled same elt (fun l' => fresh B (CSet (set_iter B (kept l')))) v l w) /\
    (forall l, view B v = Some (CFrozen l) ->
       validate_on_demand B same rk elt v w = all_filled same elt (fun l' => fresh B (CFrozen (set_iter B (kept l')))) v l w) /\
    forall l', set_of (key_eq B) l' (kept l') /\
               (all_different (key_eq B) l' = true -> kept l' = l') /\
               (all_different (key_eq B) l' = false -> List.length (kept l') < List.length l').
Proof. exact (@c128_sets_partial_proof). Qed.
Print Assumptions c128_sets_partial.

(** bytes, if the filled elements are numbers from 0 to 255: new bytes of all of them. *)
Theorem c128_bytes_partial : forall {obj W} (B : Builtins obj W) same rk elt v w l,
  identity same -> (forall x w y w', elt x w = (Ok y, w') -> is_byte B y = true) ->
  view B v = Some (CBytes l) ->
  validate_on_demand B same rk elt v w = all_filled same elt (fun l' => fresh B (CBytes l')) v l w.
Proof. exact (@c128_bytes_partial_proof). Qed.
Print Assumptions c128_bytes_partial.

(** The first filled element that the constructor does not take, if it or one before it was
    changed, ends the filling: TypeError in sets if it has no hash, and in bytes ValueError if it
    is a number out of range and TypeError if it is none.  The elements after it are not filled. *)
Theorem c128_elements_refuted : forall {obj W} (B : Builtins obj W) same rk elt v c l1 e l2 l1' e' w w1 w2,
  identity same -> view B v = Some c -> contents c = l1 ++ e :: l2 ->
  mapM elt l1 w = (Ok l1', w1) -> elt e w1 = (Ok e', w2) -> (e' <> e \/ l1' <> l1) ->
  match c with
  | CSet _ | CFrozen _ => Forall (fun x => hashable B x = true) l1' -> hashable B e' = false ->
      exists m, validate_on_demand B same rk elt v w = (Raise (mkexc TypeError m), w2)
  | CBytes _ => Forall (fun x => is_byte B x = true) l1' -> is_byte B e' = false ->
      exists m, validate_on_demand B same rk elt v w = (Raise (mkexc (if is_int B e' then ValueError else TypeError) m), w2)
  | _ => True
  end.
Proof. exact (@c128_elements_refuted_proof). Qed.
Print Assumptions c128_elements_refuted.

(** The fillers of Filler.v, that fill all elements first, do the same for these classes: so the
    theorems about fields (C10) hold of them as the code fills them, on demand. *)
Theorem c128_on_demand : forall {obj ty W} (P : Py obj ty W) (B : Builtins obj W) dflt rk t h toks ops f,
  standard P B -> plain_class P t ->
  make_filler P dflt (HAnn (HIter rk t h) toks) ops = Ok f ->
  exists f0 g,
    make_filler P dflt (HAnn (HTy t) toks) (own_only (own_ops ops)) = Ok f0 /\
    make_filler P dflt h (own_only (sub_ops ops 0)) = Ok g /\
    forall x w,
    (forall z w1, call P f0 x w = (Ok z, w1) -> exists c, view B z = Some c /\ runs_through c = true) ->
    call P f x w =
      (let* z := call P f0 x in
       if hollow_hint dflt no_sub_tokens (sub_ops ops 0) [] h then ret z
       else validate_on_demand B (py_is P) rk (call P g) z) w.
Proof. exact (@c128_on_demand_proof). Qed.
Print Assumptions c128_on_demand.

(** A str whose characters are changed: the field holds the repr of an iterator, and the
    characters after the first changed one are neither coerced nor validated. *)
Theorem c128_str_refuted : forall {obj W} (B : Builtins obj W) same rk elt v l1 e l2 e' w w1 w2,
  identity same -> view B v = Some (CStr (l1 ++ e :: l2)) ->
  mapM elt l1 w = (Ok l1, w1) -> elt e w1 = (Ok e', w2) -> e' <> e ->
  validate_on_demand B same rk elt v w = fresh B (CStr (iterator_text B)) w2.
Proof. exact (@c128_str_refuted_proof). Qed.
Print Assumptions c128_str_refuted.

(** Ranges and namedtuples of two or more fields are refused with a TypeError, and a namedtuple
    of one field gets the iterator as its field. *)
Theorem c128_classes_refuted : forall {obj W} (B : Builtins obj W) same rk elt v c l1 e l2 e' w w1 w2,
  identity same -> view B v = Some c -> contents c = l1 ++ e :: l2 ->
  mapM elt l1 w = (Ok l1, w1) -> elt e w1 = (Ok e', w2) -> e' <> e ->
  match c with
  | CRange _ => exists m, validate_on_demand B same rk elt v w = (Raise (mkexc TypeError m), w2)
  | CNamed n [_] => validate_on_demand B same rk elt v w = fresh B (CNamed n [iterator B]) w2
  | CNamed n _ => exists m, validate_on_demand B same rk elt v w = (Raise (mkexc TypeError m), w2)
  | _ => True
  end.
Proof. exact (@c128_classes_refuted_proof). Qed.
Print Assumptions c128_classes_refuted.

(** A deque with a maxlen in a Sequence or MutableSequence field loses its maxlen if an element is changed. *)
Theorem c128_maxlen_refuted : forall {obj W} (B : Builtins obj W) same elt v m l w,
  identity same -> view B v = Some (CDeque m l) ->
  validate_on_demand B same RkPlain elt v w = all_filled same elt (fun l' => fresh B (CDeque None l')) v l w.
Proof. exact (@c128_maxlen_refuted_proof). Qed.
Print Assumptions c128_maxlen_refuted.

(** Dicts, OrderedDicts and defaultdicts in DefaultDict fields, if the filled keys can be hashed and no
    two of them are equal: a new mapping of the class (with the same default_factory). *)
Theorem c128_mappings_partial : forall {obj W} (B : Builtins obj W) same rk fk fv v m w l' w1,
  view_map B v = Some m ->
  mapM (fun kv : obj * obj => let* k := fk (fst kv) in let* x := fv (snd kv) in ret (k, x)) (pairs_of m) w = (Ok l', w1) ->
  (forall kv, In kv l' -> hashable B (fst kv) = true) -> all_different (key_eq B) (map fst l') = true ->
  (forall l, m = MDict l -> validate_map B same rk fk fv v w = all_items_filled same fk fv (fun l => fresh_map B (MDict l)) v l w) /\
  (forall l, m = MOrdered l -> validate_map B same rk fk fv v w = all_items_filled same fk fv (fun l => fresh_map B (MOrdered l)) v l w) /\
  (forall f l, m = MDefault f l -> validate_map B same RkDefaultDict fk fv v w = all_items_filled same fk fv (fun l => fresh_map B (MDefault f l)) v l w).
Proof. exact (@c128_mappings_partial_proof). Qed.
Print Assumptions c128_mappings_partial.

(** If two keys become equal, items are lost: of those with equal keys there is then one, with the
    first key and the last value. *)
Theorem c128_collision_refuted : forall {obj W} (B : Builtins obj W) same rk fk fv v l w l' w1,
  view_map B v = Some (MDict l) ->
  mapM (fun kv : obj * obj => let* k := fk (fst kv) in let* x := fv (snd kv) in ret (k, x)) l w = (Ok l', w1) ->
  map fst l' <> map fst l -> identity same ->
  (forall kv, In kv l' -> hashable B (fst kv) = true) -> all_different (key_eq B) (map fst l') = false ->
  exists l'', validate_map B same rk fk fv v w = fresh_map B (MDict l'') w1 /\ List.length l'' < List.length l /\
    (equivalence (key_eq B) -> dict_of (key_eq B) l' l'').
Proof. exact (@c128_collision_refuted_proof). Qed.
Print Assumptions c128_collision_refuted.

(** A defaultdict in a Dict, Mapping or MutableMapping field raises TypeError if a key or value is changed. *)
Theorem c128_defaultdict_refuted : forall {obj W} (B : Builtins obj W) same fk fv v f l w l' w1,
  view_map B v = Some (MDefault f l) ->
  mapM (fun kv : obj * obj => let* k := fk (fst kv) in let* x := fv (snd kv) in ret (k, x)) l w = (Ok l', w1) ->
  l' <> l -> identity same ->
  exists e, validate_map B same RkPlain fk fv v w = (Raise (mkexc TypeError e), w1).
Proof. exact (@c128_defaultdict_refuted_proof). Qed.
Print Assumptions c128_defaultdict_refuted.

(** A Counter becomes a Counter of its own items: whatever it holds then is a pair of a key and a
    value, with a positive count. *)
Theorem c128_counter_refuted : forall {obj W} (B : Builtins obj W) same rk fk fv v l w l' w1,
  view_map B v = Some (MCounter l) ->
  mapM (fun kv : obj * obj => let* k := fk (fst kv) in let* x := fv (snd kv) in ret (k, x)) l w = (Ok l', w1) ->
  l' <> l -> identity same -> (forall k x, hashable B (pair_obj B k x) = true) ->
  exists l'', validate_map B same rk fk fv v w = fresh_map B (MCounter l'') w1 /\
    forall p n, In (p, n) l'' -> (exists k x, In (k, x) l' /\ p = pair_obj B k x) /\ (exists c, 1 <= c /\ n = int_obj B c).
Proof. exact (@c128_counter_refuted_proof). Qed.
Print Assumptions c128_counter_refuted.

(** the lists and tuples of Demo.v are such containers *)
Definition demo_builtins : Builtins dobj demo_state := {|
  view := fun v => match v with DList l => Some (CList (unchain l)) | DTuple l => Some (CTuple (unchain l)) | DStr s => Some (CStr [DStr "a"; DStr "b"]) | _ => None end;
  view_map := fun v => match v with DDict l => Some (MDict (Demo.pairs l)) | DInt 7 => Some (MCounter [(DStr "a", DInt 1)]) | DInt 8 => Some (MDefault DNone [(DStr "a", DInt 1)]) | _ => None end;
  fresh := fun c => ret (match c with CList l => dlist l | CTuple l => dtuple l | _ => DStr "<chain object>" end);
  fresh_map := fun m => ret (match m with MDict l => ddict l | MCounter l => ddict l | _ => DNone end);
  hashable := fun _ => true; key_eq := dis; set_iter := fun l => l; iterator := DNone; iterator_text := [];
  is_byte := fun _ => false; is_int := fun _ => false; pair_obj := fun k v => dtuple [k; v]; int_obj := fun n => DInt (Z.of_nat n)
|}.
Definition plus_one (v : dobj) : M demo_state dobj := ret (match v with DInt z => DInt (z + 1) | DStr s => DStr (s ++ "!") | _ => v end).

Example c128_standard : identity dis /\
  forall v c, view demo_builtins v = Some c -> runs_through c = true ->
    elems demo0 v = Some (Containers.contents c) /\
    forall rk es w, rebuild demo0 rk v es w = construct_from demo_builtins rk c (map ret es) w.
Proof.
  split; [intros x y; symmetry; apply (reflect_iff _ _ (disP x y))|].
  assert (K : forall (es : list dobj) (w : demo_state), take_all (map ret es) w = (Ok es, w)).
  { induction es as [|x es IH]; intros w; [reflexivity|]. unfold take_all in *. cbn. unfold bind. cbn. now rewrite IH. }
  intros v c H. destruct v; cbn in H; try discriminate; injection H as <-; intros H; try discriminate; (split; [reflexivity|]);
  intros rk es w; cbn; unfold bind; rewrite K; reflexivity.
Qed.

Example c128_case : forall w,
  validate_on_demand demo_builtins dis RkPlain plus_one (dlist [DNone; DInt 1]) w = (Ok (dlist [DNone; DInt 2]), w) /\
  validate_on_demand demo_builtins dis RkPlain plus_one (DStr "ab") w = (Ok (DStr "<chain object>"), w) /\
  validate_map demo_builtins dis RkPlain plus_one plus_one (ddict [(DStr "a", DInt 1)]) w = (Ok (ddict [(DStr "a!", DInt 2)]), w) /\
  validate_map demo_builtins dis RkPlain plus_one plus_one (DInt 7) w = (Ok (ddict [(dtuple [DStr "a!"; DInt 2], DInt 1)]), w) /\
  validate_map demo_builtins dis RkPlain (fun _ => ret DNone) ret (ddict [(DStr "a", DInt 1); (DStr "b", DInt 2)]) w = (Ok (ddict [(DNone, DInt 2)]), w) /\
  (exists e, validate_map demo_builtins dis RkPlain plus_one plus_one (DInt 8) w = (Raise (mkexc TypeError e), w)).
Proof. intros w. repeat split. eexists. reflexivity. Qed.

(** numbers in sets and bytes: 1000 is the set {1, 2, 3}, 1001 is bytes; new containers are noted *)
Definition num_builtins : Builtins Z (list (cont Z)) := {|
  view := fun v => if (v =? 1000)%Z then Some (CSet [1; 2; 3]%Z) else if (v =? 1001)%Z then Some (CBytes [1; 2; 255]%Z) else if (v =? 1002)%Z then Some (CFrozen [1; 2; 3]%Z) else None;
  view_map := fun v => if (v =? 1003)%Z then Some (MDict [(1, 10); (2, 20); (3, 30)]%Z) else None;
  fresh := fun c w => (Ok 2000%Z, c :: w); fresh_map := fun m w => (Ok 2001%Z, CList (map snd (pairs_of m)) :: w);
  hashable := fun x => (x <? 1000)%Z; key_eq := Z.eqb; set_iter := fun l => l; iterator := 3000%Z; iterator_text := [];
  is_byte := fun x => ((0 <=? x) && (x <? 256))%Z%bool; is_int := fun _ => true; pair_obj := fun k v => (1000 * k + v)%Z; int_obj := Z.of_nat
|}.
Definition half (x : Z) : M (list (cont Z)) Z := ret (x / 2)%Z.
Example c128_numbers :
  validate_on_demand num_builtins Z.eqb RkPlain half 1000%Z [] = (Ok 2000%Z, [CSet [0; 1]%Z]) /\
  validate_on_demand num_builtins Z.eqb RkPlain half 1002%Z [] = (Ok 2000%Z, [CFrozen [0; 1]%Z]) /\
  validate_on_demand num_builtins Z.eqb RkPlain half 1001%Z [] = (Ok 2000%Z, [CBytes [0; 1; 127]%Z]) /\
  (exists m, validate_on_demand num_builtins Z.eqb RkPlain (fun x => ret (x + 1)%Z) 1001%Z [] = (Raise (mkexc ValueError m), [])) /\
  (exists m, validate_on_demand num_builtins Z.eqb RkPlain (fun x => ret (x * 500)%Z) 1000%Z [] = (Raise (mkexc TypeError m), [])) /\
  validate_map num_builtins Z.eqb RkPlain half ret 1003%Z [] = (Ok 2001%Z, [CList [10; 30]%Z]).
Proof. repeat split; eexists; reflexivity. Qed.
Example c128_lawful : identity Z.eqb /\ equivalence Z.eqb.
Proof. split; [exact Z.eqb_eq|]. split; [exact Z.eqb_refl|]. split; intros *; rewrite !Z.eqb_eq; congruence. Qed.
