(** Select.v -- model of records/select.py:8-143 (class Select) and of the
    bound factories and exporters that carry a Select (148-369).

    Keys are strings; the values of the mapping are of an arbitrary type [A]. *)
From Verif Require Import Base.

(** ** Arguments *)

(** An iterable handed to [Select].  [Reiter] gives its elements anew each time
    it is iterated (tuple, list, set, dict view); [OneShot] is an iterator or
    generator, and holds the elements it has not yielded yet. *)
Inductive iter (X : Type) :=
| Reiter (l : list X)
| OneShot (l : list X).
Arguments Reiter {X} l.
Arguments OneShot {X} l.

(** the elements a for loop over the iterable sees *)
Definition elements {X} (it : iter X) : list X :=
  match it with Reiter l => l | OneShot l => l end.

(** the iterable after a for loop that stopped with [rest] not yet yielded *)
Definition leave {X} (it : iter X) (rest : list X) : iter X :=
  match it with Reiter l => Reiter l | OneShot _ => OneShot rest end.

Definition stable_iter {X} (it : iter X) : bool :=
  match it with Reiter _ => true | OneShot _ => false end.

(** [Union[Iterable[Tuple[str, X]], Mapping[str, X]]] *)
Inductive pairs_arg (X : Type) :=
| PIter (it : iter (string * X))
| PMap (d : dict X).
Arguments PIter {X} it.
Arguments PMap {X} d.

(** [Union[Iterable[str], str]] *)
Inductive names_arg :=
| NIter (it : iter string)
| NStr (s : string).

Section Select.
Context {A : Type}.

(** An instance of Select: its six attributes and the cached truth value
    (records/select.py:47-55). *)
Record sel := Sel {
  s_add   : iter (string * A);
  s_madd  : iter (string * A);
  s_rem   : iter string;
  s_mrem  : iter string;
  s_ren   : iter (string * string);
  s_mren  : iter (string * string);
  s_bool  : option bool
}.

(** records/select.py:35-42: a Mapping becomes the tuple of its items *)
Definition norm_pairs {X} (a : pairs_arg X) : iter (string * X) :=
  match a with PIter it => it | PMap d => Reiter d end.
(** records/select.py:43-46: a str becomes a one-element tuple *)
Definition norm_names (a : names_arg) : iter string :=
  match a with NIter it => it | NStr s => Reiter [s] end.

(** Select.__init__, records/select.py:15-55 *)
Definition sel_init (add madd : pairs_arg A) (rem mrem : names_arg)
           (ren mren : pairs_arg string) : sel :=
  Sel (norm_pairs add) (norm_pairs madd) (norm_names rem) (norm_names mrem)
      (norm_pairs ren) (norm_pairs mren) None.

(** Select.empty, records/select.py:143: all arguments default to () *)
Definition sel_empty : sel :=
  sel_init (PIter (Reiter [])) (PIter (Reiter [])) (NIter (Reiter [])) (NIter (Reiter []))
           (PIter (Reiter [])) (PIter (Reiter [])).

(** ** Truth value *)

(** [next(it, None) is not None] on one link of the chain: whether there is an
    element, and the iterable afterwards (a one-shot iterator loses it). *)
Definition pull {X} (it : iter X) : bool * iter X :=
  match elements it with
  | [] => (false, it)
  | _ :: r => (true, leave it r)
  end.

(** Select.__bool__, records/select.py:91-101.  The chain is only advanced until
    its first element.  (An element that is itself None would count as absent;
    keys are strings here.) *)
Definition sel_truth (s : sel) : bool * sel :=
  match s_bool s with
  | Some b => (b, s)
  | None =>
    let '(Sel a ma r mr n mn _) := s in
    let '(b, a) := pull a in if b then (true, Sel a ma r mr n mn (Some true)) else
    let '(b, ma) := pull ma in if b then (true, Sel a ma r mr n mn (Some true)) else
    let '(b, r) := pull r in if b then (true, Sel a ma r mr n mn (Some true)) else
    let '(b, mr) := pull mr in if b then (true, Sel a ma r mr n mn (Some true)) else
    let '(b, n) := pull n in if b then (true, Sel a ma r mr n mn (Some true)) else
    let '(b, mn) := pull mn in if b then (true, Sel a ma r mr n mn (Some true)) else
    (false, Sel a ma r mr n mn (Some false))
  end.

(** ** Merging *)

(** the state of an argument after tuple(chain(...)) has run through it *)
Definition sel_drain (s : sel) : sel :=
  let '(Sel a ma r mr n mn b) := s in
  Sel (leave a []) (leave ma []) (leave r []) (leave mr []) (leave n []) (leave mn []) b.

(** Select._merge, records/select.py:57-69: the result and the two operands
    afterwards.  (If the result is one of the operands Python returns that very
    object; the model returns its state.) *)
Definition sel_merge2 (s o : sel) : sel * (sel * sel) :=
  let '(bs, s) := sel_truth s in
  if negb bs then (o, (s, o)) else
  let '(bo, o) := sel_truth o in
  if negb bo then (s, (s, o)) else
  (Sel (Reiter (elements (s_add s) ++ elements (s_add o)))
       (Reiter (elements (s_madd s) ++ elements (s_madd o)))
       (Reiter (elements (s_rem s) ++ elements (s_rem o)))
       (Reiter (elements (s_mrem s) ++ elements (s_mrem o)))
       (Reiter (elements (s_ren s) ++ elements (s_ren o)))
       (Reiter (elements (s_mren s) ++ elements (s_mren o)))
       None,
   (sel_drain s, sel_drain o)).

(** Select.merge, records/select.py:71-89.  [kw] is the Select built from the
    keyword arguments, if there are any (the code merges it last). *)
Definition sel_merge (s : sel) (others : list sel) (kw : option sel) : outcome sel :=
  match others, kw with
  | [], None => Raise (mkexc TypeError "merge must be called with arguments")
  | _, _ =>
    let r := fold_left (fun acc o => fst (sel_merge2 acc o)) others s in
    match kw with
    | None => Ok r
    | Some k => Ok (fst (sel_merge2 r k))
    end
  end.

(** ** Application *)

(** [for x in l: body(x)] over a mutable dict [d]: outcome, dict afterwards and
    elements not yet consumed. *)
Fixpoint for_each {X} (body : X -> dict A -> outcome unit * dict A) (l : list X) (d : dict A)
  : outcome unit * dict A * list X :=
  match l with
  | [] => (Ok tt, d, [])
  | x :: r => match body x d with
              | (Ok _, d') => for_each body r d'
              | (Raise e, d') => (Raise e, d', r)
              end
  end.

Definition clash (k : string) : exc :=
  mkexc ValueError ("key " ++ k ++ " cannot be overridden in map").

(** records/select.py:117-118, [mapping.pop(kti)] *)
Definition do_remove (k : string) (d : dict A) : outcome unit * dict A :=
  if dmem k d then (Ok tt, ddel k d) else (Raise (mkexc KeyError k), d).
(** records/select.py:119-120, [mapping.pop(kti, None)] *)
Definition do_mremove (k : string) (d : dict A) : outcome unit * dict A := (Ok tt, ddel k d).
(** records/select.py:121-124 *)
Definition do_rename (sd : string * string) (d : dict A) : outcome unit * dict A :=
  let '(src, dst) := sd in
  if dmem dst d then (Raise (clash dst), d) else
  match dget src d with
  | None => (Raise (mkexc KeyError src), d)
  | Some v => (Ok tt, dset dst v (ddel src d))
  end.
(** records/select.py:125-130 *)
Definition do_mrename (sd : string * string) (d : dict A) : outcome unit * dict A :=
  let '(src, dst) := sd in
  if negb (dmem src d) then (Ok tt, d) else
  if dmem dst d then (Raise (clash dst), d) else
  match dget src d with
  | None => (Raise (mkexc KeyError src), d)
  | Some v => (Ok tt, dset dst v (ddel src d))
  end.
(** records/select.py:131-134 *)
Definition do_add (kv : string * A) (d : dict A) : outcome unit * dict A :=
  let '(k, v) := kv in
  if dmem k d then (Raise (clash k), d) else (Ok tt, dset k v d).
(** records/select.py:135-138 *)
Definition do_madd (kv : string * A) (d : dict A) : outcome unit * dict A :=
  let '(k, v) := kv in
  if dmem k d then (Ok tt, d) else (Ok tt, dset k v d).

(** Select.__call__, records/select.py:103-140, on a dict, which Python mutates
    in place: the result gives the outcome, the dict afterwards and the Select
    afterwards.  On success the returned mapping is the dict afterwards.  For a
    mapping that is not a dict the code first makes a copy (114-115) and the
    caller's mapping is untouched: see [sel_call_mapping]. *)
Definition sel_call (s : sel) (d : dict A) : outcome unit * dict A * sel :=
  let '(b, s) := sel_truth s in
  if negb b then (Ok tt, d, s) else
  let '(Sel a ma r mr n mn c) := s in
  match for_each do_remove (elements r) d with
  | (Raise e, d, x) => (Raise e, d, Sel a ma (leave r x) mr n mn c)
  | (Ok _, d, x) => let r := leave r x in
  match for_each do_mremove (elements mr) d with
  | (Raise e, d, x) => (Raise e, d, Sel a ma r (leave mr x) n mn c)
  | (Ok _, d, x) => let mr := leave mr x in
  match for_each do_rename (elements n) d with
  | (Raise e, d, x) => (Raise e, d, Sel a ma r mr (leave n x) mn c)
  | (Ok _, d, x) => let n := leave n x in
  match for_each do_mrename (elements mn) d with
  | (Raise e, d, x) => (Raise e, d, Sel a ma r mr n (leave mn x) c)
  | (Ok _, d, x) => let mn := leave mn x in
  match for_each do_add (elements a) d with
  | (Raise e, d, x) => (Raise e, d, Sel (leave a x) ma r mr n mn c)
  | (Ok _, d, x) => let a := leave a x in
  match for_each do_madd (elements ma) d with
  | (Raise e, d, x) => (Raise e, d, Sel a (leave ma x) r mr n mn c)
  | (Ok _, d, x) => (Ok tt, d, Sel a (leave ma x) r mr n mn c)
  end end end end end end.

(** Select.__call__ on a Mapping argument that may or may not be a dict
    (records/select.py:112-115): the returned mapping or error, and the
    caller's mapping afterwards. *)
Definition sel_call_mapping (s : sel) (is_dict : bool) (d : dict A) : outcome (dict A) * dict A :=
  let '(o, d', _) := sel_call s d in
  let res := match o with Ok _ => Ok d' | Raise e => Raise e end in
  (res, if is_dict then d' else d).

(** the outcome alone *)
Definition sel_apply (s : sel) (d : dict A) : outcome (dict A) := fst (sel_call_mapping s true d).

(** a Select built only from re-iterable arguments *)
Definition stable (s : sel) : Prop :=
  stable_iter (s_add s) = true /\ stable_iter (s_madd s) = true /\ stable_iter (s_rem s) = true
  /\ stable_iter (s_mrem s) = true /\ stable_iter (s_ren s) = true /\ stable_iter (s_mren s) = true.

End Select.
Arguments sel A : clear implicits.

(** ** Bound factories and exporters *)

(** SelectableFactory.Bound, records/select.py:184-213: a factory bound to an
    owner class with a Select.  The descriptor and the owner never change. *)
Record bound_factory (A D C : Type) := BoundFactory {
  bf_descriptor : D;
  bf_owner : C;
  bf_select : sel A
}.
Arguments BoundFactory {A D C}.
Arguments bf_descriptor {A D C}.
Arguments bf_owner {A D C}.
Arguments bf_select {A D C}.

(** SelectableFactory.__get__, records/select.py:178-182 *)
Definition bf_get {A D C} (d : D) (owner : C) : bound_factory A D C := BoundFactory d owner sel_empty.

(** SelectableFactory.Bound.select, records/select.py:203-213 *)
Definition bf_do_select {A D C} (b : bound_factory A D C) (selects : list (sel A)) (kw : option (sel A))
  : outcome (bound_factory A D C) :=
  do s <- sel_merge (bf_select b) selects kw;
  Ok (BoundFactory (bf_descriptor b) (bf_owner b) s).

(** Exporter.Bound / BoundToClass, records/select.py:302-359.  [X] is the type
    of the values passed to [_to_dict]; positional and keyword. *)
Record bound_exporter (A D C X : Type) := BoundExporter {
  be_descriptor : D;
  be_owner : C;
  be_args : list X;
  be_kwargs : dict X;
  be_select : sel A
}.
Arguments BoundExporter {A D C X}.
Arguments be_descriptor {A D C X}.
Arguments be_owner {A D C X}.
Arguments be_args {A D C X}.
Arguments be_kwargs {A D C X}.
Arguments be_select {A D C X}.

(** Exporter.__get__, records/select.py:294-300 *)
Definition be_get {A D C X} (d : D) (owner : C) : bound_exporter A D C X :=
  BoundExporter d owner [] [] sel_empty.

(** Exporter.Bound.select, records/select.py:330-341 *)
Definition be_do_select {A D C X} (b : bound_exporter A D C X) (selects : list (sel A)) (kw : option (sel A))
  : outcome (bound_exporter A D C X) :=
  do s <- sel_merge (be_select b) selects kw;
  Ok (BoundExporter (be_descriptor b) (be_owner b) (be_args b) (be_kwargs b) s).

(** Exporter.Bound.export_with, records/select.py:343-354 *)
Definition be_export_with {A D C X} (b : bound_exporter A D C X) (args : list X) (kw : dict X)
  : bound_exporter A D C X :=
  BoundExporter (be_descriptor b) (be_owner b) (be_args b ++ args) (dupdate (be_kwargs b) kw) (be_select b).

(** the arguments that reach [_to_dict] and [func] when a bound exporter is
    called: Exporter.run (records/select.py:279-292) and NoArgExporter.run
    (368-369), which passes call arguments on to [_to_dict]. *)
Definition be_call_args {A D C X} (noarg : bool) (b : bound_exporter A D C X) (args : list X) (kw : dict X)
  : (list X * dict X) * (list X * dict X) :=
  if noarg then ((be_args b ++ args, dupdate (be_kwargs b) kw), ([], []))
  else ((be_args b, be_kwargs b), (args, kw)).
