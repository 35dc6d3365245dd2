(** Anykeys.v -- Select and from_mapping on mappings whose keys are any objects
    (records/select.py:8-143, records/record.py:431-449).

    Select.v and Record.v have keys that are strings.  Here keys are of any type, compared with
    the == that dicts use, which may hold between different objects (1, 1.0 and True).  Which
    keys are None matters (records/select.py:91-101), and which are strings (the call
    [cls( **mapping)], records/select.py:176).

    Simplified: the arguments of a Select can be iterated any number of times (for others see
    Select.v); all keys have a hash; mappings are dicts, or give their items like one. *)
From Verif Require Import Base Py Select Filler Classes Runtime Record.

Section Anykeys.
Context {K A : Type}.
(** == of keys; is the key None; the text of a key that is a str; how a key is shown *)
Context (keq : K -> K -> bool) (is_none : K -> bool) (text : K -> option string) (show : K -> string).

(** dict[Any, A]: insertion-ordered *)
Definition kdict := list (K * A).
(** d.get(k) *)
Fixpoint kget (k : K) (d : kdict) : option A :=
  match d with [] => None | (k', v) :: r => if keq k k' then Some v else kget k r end.
(** k in d *)
Definition kmem (k : K) (d : kdict) : bool := match kget k d with Some _ => true | None => false end.
(** d[k] = v: an equal key stays *)
Fixpoint kset (k : K) (v : A) (d : kdict) : kdict :=
  match d with
  | [] => [(k, v)]
  | (k', v') :: r => if keq k k' then (k', v) :: r else (k', v') :: kset k v r
  end.
(** d.pop(k, None), the removal *)
Fixpoint kdel (k : K) (d : kdict) : kdict :=
  match d with [] => [] | (k', v') :: r => if keq k k' then r else (k', v') :: kdel k r end.

(** an instance of Select -- records/select.py:15-55 *)
Record ksel := KSel {
  ks_add : list (K * A);
  ks_madd : list (K * A);
  ks_rem : list K;
  ks_mrem : list K;
  ks_ren : list (K * K);
  ks_mren : list (K * K)
}.
(** Select.__bool__ -- records/select.py:91-101: whether the first element of all of them is
    there and is not None.  Pairs are not None. *)
Definition ktruth (s : ksel) : bool :=
  match ks_add s, ks_madd s, ks_rem s, ks_mrem s, ks_ren s, ks_mren s with
  | _ :: _, _, _, _, _, _ => true
  | [], _ :: _, _, _, _, _ => true
  | [], [], k :: _, _, _, _ => negb (is_none k)
  | [], [], [], k :: _, _, _ => negb (is_none k)
  | [], [], [], [], _ :: _, _ => true
  | [], [], [], [], [], _ :: _ => true
  | [], [], [], [], [], [] => false
  end.
(** Select._merge -- records/select.py:57-69 *)
Definition kmerge (s o : ksel) : ksel :=
  if negb (ktruth s) then o else
  if negb (ktruth o) then s else
  KSel (ks_add s ++ ks_add o) (ks_madd s ++ ks_madd o) (ks_rem s ++ ks_rem o) (ks_mrem s ++ ks_mrem o)
       (ks_ren s ++ ks_ren o) (ks_mren s ++ ks_mren o).

(** a for loop that edits a dict *)
Fixpoint steps {X} (body : X -> kdict -> outcome kdict) (l : list X) (d : kdict) : outcome kdict :=
  match l with [] => Ok d | x :: r => do d1 <- body x d; steps body r d1 end.

Definition kclash (k : K) : exc := mkexc ValueError ("key " ++ show k ++ " cannot be overridden in map").
(** records/select.py:117-118 *)
Definition kremove (k : K) (d : kdict) : outcome kdict :=
  if kmem k d then Ok (kdel k d) else Raise (mkexc KeyError (show k)).
(** records/select.py:119-120 *)
Definition kmremove (k : K) (d : kdict) : outcome kdict := Ok (kdel k d).
(** records/select.py:121-124 *)
Definition krename (sd : K * K) (d : kdict) : outcome kdict :=
  if kmem (snd sd) d then Raise (kclash (snd sd)) else
  match kget (fst sd) d with
  | None => Raise (mkexc KeyError (show (fst sd)))
  | Some v => Ok (kset (snd sd) v (kdel (fst sd) d))
  end.
(** records/select.py:125-130 *)
Definition kmrename (sd : K * K) (d : kdict) : outcome kdict :=
  if negb (kmem (fst sd) d) then Ok d else krename sd d.
(** records/select.py:131-134 *)
Definition kadd (kv : K * A) (d : kdict) : outcome kdict :=
  if kmem (fst kv) d then Raise (kclash (fst kv)) else Ok (kset (fst kv) (snd kv) d).
(** records/select.py:135-138 *)
Definition kmadd (kv : K * A) (d : kdict) : outcome kdict :=
  if kmem (fst kv) d then Ok d else Ok (kset (fst kv) (snd kv) d).

(** Select.__call__ -- records/select.py:103-140; the result or the error *)
Definition kcall (s : ksel) (d : kdict) : outcome kdict :=
  if negb (ktruth s) then Ok d else
  do d <- steps kremove (ks_rem s) d;
  do d <- steps kmremove (ks_mrem s) d;
  do d <- steps krename (ks_ren s) d;
  do d <- steps kmrename (ks_mren s) d;
  do d <- steps kadd (ks_add s) d;
  steps kmadd (ks_madd s) d.

(** ChainMap( *maps, dict( **kwargs )) -- records/record.py:449: the keys of the last mapping come
    first, values are those of the first mapping that has the key.  [kw] are keywords as items. *)
Definition kunion (seen : list K) (d : kdict) : list K :=
  fold_left (fun acc kv => if existsb (keq (fst kv)) acc then acc else acc ++ [fst kv]) d seen.
Fixpoint kfirst (maps : list kdict) (k : K) : option A :=
  match maps with
  | [] => None
  | m :: r => match kget k m with Some v => Some v | None => kfirst r k end
  end.
Definition kchain (maps : list kdict) (kw : kdict) : kdict :=
  let all := maps ++ [kw] in
  flat_map (fun k => match kfirst all k with Some v => [(k, v)] | None => [] end)
           (fold_left kunion (rev all) []).

(** [f( **mapping)]: all keys have to be strings, or Python raises a TypeError before the call *)
Definition keywords (d : kdict) : outcome (dict A) :=
  mapO (fun kv => match text (fst kv) with
                  | Some k => Ok (k, snd kv)
                  | None => Raise (mkexc TypeError "keywords must be strings")
                  end) d.
End Anykeys.
Arguments kdict : clear implicits.
Arguments ksel : clear implicits.

Section From.
Context {obj ty W : Type} (R : Rt obj ty W).
Context {K : Type} (keq : K -> K -> bool) (is_none : K -> bool) (text : K -> option string) (show : K -> string).

(** cls.from_mapping( *maps, **kw) with a Select -- records/record.py:431-449, select.py:164-176 *)
Definition kfrom_mapping (fuel : nat) (c : @cls obj ty W) (s : ksel K obj) (maps : list (kdict K obj)) (kw : kdict K obj) : M W obj :=
  let* d := lift (kcall keq is_none show s (kchain keq maps kw)) in
  let* d := lift (keywords text d) in
  construct R fuel c None d.
End From.
