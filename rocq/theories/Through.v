(** Through.v -- calling exporters, on a record and on the class, with what select and export_with
    have been called with before (records/select.py:258-369). *)
From Verif Require Import Base Py Select Filler Classes Runtime Record.
Open Scope string_scope.
Open Scope list_scope.

Section Through.
Context {obj ty W X : Type} (R : Rt obj ty W).
Notation P := (rt_py R).
Notation cls := (@cls obj ty W).
Context (ctx : ty -> option cls).

(** an exporter: whether it is a NoArgExporter (records/select.py:362-369), and the function it
    wraps, which gets the mapping and the arguments of the call *)
Record exporter := Exporter {
  ex_noarg : bool;
  ex_func : dict obj -> list obj -> dict obj -> M W X
}.

(** what Python makes of the arguments of _to_dict (records/record.py:300-304), which may not fit *)
Context (parse_args : list obj -> dict obj -> outcome export_args).

(** Exporter.run -- records/select.py:279-292, with NoArgExporter.run (368-369) as [be_call_args] *)
Definition run {C} (c : cls) (v : obj) (b : bound_exporter obj exporter C obj) (args : list obj) (kw : dict obj) : M W X :=
  let '((eargs, ekw), (fargs, fkw)) := be_call_args (ex_noarg (be_descriptor b)) b args kw in
  let* a := lift (parse_args eargs ekw) in
  let* d := to_dict_of R c v a sel_empty in
  let* d := lift (sel_apply (be_select b) d) in
  ex_func (be_descriptor b) d fargs fkw.

(** Exporter.Bound.__call__ -- records/select.py:326-328: [cls._to_dict] is looked up on the record *)
Definition call_bound (b : bound_exporter obj exporter obj obj) (args : list obj) (kw : dict obj) : M W X :=
  if dmem "self" kw then raise (mkexc TypeError "multiple values for argument 'self'") else
  with_class R ctx (be_owner b) (fun c => run c (be_owner b) b args kw).

(** Exporter.BoundToClass.__call__ -- records/select.py:356-359 *)
Definition call_class (b : bound_exporter obj exporter cls obj) (args : list obj) (kw : dict obj) : M W X :=
  if dmem "self" kw then raise (mkexc TypeError "multiple values for argument 'self'") else
  match args, dget "instance" kw with
  | v :: args, None => run (be_owner b) v b args kw
  | [], Some v => run (be_owner b) v b [] (ddel "instance" kw)
  | _ :: _, Some _ => raise (mkexc TypeError "multiple values for argument 'instance'")
  | [], None => raise (mkexc TypeError "missing 1 required positional argument: 'instance'")
  end.

(** .select(...) and .export_with(...), one after the other *)
Inductive chain_op :=
| Selecting (selects : list (sel obj)) (kw : option (sel obj))
| ExportWith (args : list obj) (kw : dict obj).
Definition do_op {C} (b : bound_exporter obj exporter C obj) (o : chain_op) : outcome (bound_exporter obj exporter C obj) :=
  match o with
  | Selecting ss kw => be_do_select b ss kw
  | ExportWith args kw => Ok (be_export_with b args kw)
  end.
Fixpoint do_ops {C} (b : bound_exporter obj exporter C obj) (l : list chain_op) : outcome (bound_exporter obj exporter C obj) :=
  match l with
  | [] => Ok b
  | o :: r => do b1 <- do_op b o; do_ops b1 r
  end.

(** x.to_e.select(...).export_with(...)( *args, **kw) and A.to_e.select(...).export_with(...)( *args, **kw) *)
Definition on_record (e : exporter) (x : obj) (l : list chain_op) (args : list obj) (kw : dict obj) : M W X :=
  let* b := lift (do_ops (be_get e x) l) in call_bound b args kw.
Definition on_class (e : exporter) (c : cls) (l : list chain_op) (args : list obj) (kw : dict obj) : M W X :=
  let* b := lift (do_ops (be_get e c) l) in call_class b args kw.
End Through.
Arguments exporter : clear implicits.
Arguments chain_op : clear implicits.

(** cls.to_dict(v, ...) and its fellows, without the bookkeeping of arguments: the class's
    Exporter.run -- records/select.py:279-292 *)
Definition class_export {obj ty W X} (R : Rt obj ty W) (c : @cls obj ty W) (v : obj) (a : export_args)
    (s : sel obj) (func : dict obj -> M W X) : M W X :=
  let* d := to_dict_of R c v a sel_empty in
  let* d := lift (sel_apply s d) in
  func d.
