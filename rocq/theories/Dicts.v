(** Dicts.v -- the mappings that factories, Selects and exporters pass around, as objects that
    the program and the library share: dicts, defaultdicts, ChainMaps, read-only proxies and
    mappings of the program.

    Select.v and Record.v pass the items of a mapping; here it is visible which dict is
    edited.

    Simplifications: keys are strings; the default of a defaultdict is the same value each
    time; a mapping of the program that yields a key twice is read as the dict of its items;
    Selects are built from iterables that can be iterated again. *)
From Verif Require Import Base Select.
Open Scope string_scope.
Open Scope list_scope.

Section Dicts.
Context {V : Type}.

(** a dict; [missing] is what the factory of a defaultdict gives *)
Record cell := Cell { items : dict V; missing : option V }.
Definition heap := list cell.

(** mappings: a dict, types.MappingProxyType(m), ChainMap(m1, ..., mn), an object of the program *)
Inductive mapping :=
| MDict (a : nat)
| MProxy (m : mapping)
| MChain (ms : list mapping)
| MUser (u : nat).

(** [keys()] and [__getitem__] of the program's own mappings *)
Context (user_keys : nat -> M heap (list string)) (user_item : nat -> string -> M heap V).

Fixpoint put (a : nat) (c : cell) (h : heap) : heap :=
  match h, a with
  | [], _ => []
  | _ :: r, O => c :: r
  | x :: r, S n => x :: put n c r
  end.

(** a new dict *)
Definition alloc (d : dict V) : M heap mapping := fun h => (Ok (MDict (List.length h)), h ++ [Cell d None]).

Definition dangling : exc := mkexc RuntimeError "no such object".

(** an operation on the items of a dict *)
Definition in_place (a : nat) (f : dict V -> outcome unit * dict V) : M heap unit :=
  fun h => match nth_error h a with
           | None => (Raise dangling, h)
           | Some c => let '(o, d) := f (items c) in (o, put a (Cell d (missing c)) h)
           end.

(** [m[k]].  A defaultdict stores its default; ChainMap.__getitem__ goes on to the next
    mapping after a KeyError. *)
Fixpoint m_item (m : mapping) (k : string) : M heap V :=
  match m with
  | MDict a => fun h =>
      match nth_error h a with
      | None => (Raise dangling, h)
      | Some c =>
          match dget k (items c) with
          | Some v => (Ok v, h)
          | None => match missing c with
                    | Some v => (Ok v, put a (Cell (dset k v (items c)) (missing c)) h)
                    | None => (Raise (mkexc KeyError k), h)
                    end
          end
      end
  | MProxy m => m_item m k
  | MChain ms =>
      (fix first (ms : list mapping) : M heap V :=
         match ms with
         | [] => raise (mkexc KeyError k)
         | m :: r => fun h =>
             match m_item m k h with
             | (Ok v, h1) => (Ok v, h1)
             | (Raise e, h1) => if is_KeyError e then first r h1 else (Raise e, h1)
             end
         end) ms
  | MUser u => user_item u k
  end.

(** keys that are not there yet go to the end *)
Definition add_keys (seen ks : list string) : list string :=
  fold_left (fun acc k => if smem k acc then acc else acc ++ [k]) ks seen.

(** [m.keys()].  ChainMap.__iter__ starts from the last mapping. *)
Fixpoint m_keys (m : mapping) : M heap (list string) :=
  match m with
  | MDict a => fun h => match nth_error h a with None => (Raise dangling, h) | Some c => (Ok (keys (items c)), h) end
  | MProxy m => m_keys m
  | MChain ms =>
      (fix all (ms : list mapping) : M heap (list string) :=
         match ms with
         | [] => ret []
         | m :: r => let* seen := all r in let* ks := m_keys m in ret (add_keys seen ks)
         end) ms
  | MUser u => user_keys u
  end.

(** what [dict(m)] and [f( **m )] read: the items of a dict; the keys of another mapping, and
    then the item of each *)
Definition read (m : mapping) : M heap (dict V) :=
  match m with
  | MDict a => fun h => match nth_error h a with None => (Raise dangling, h) | Some c => (Ok (items c), h) end
  | _ =>
      let* ks := m_keys m in
      let* kvs := mapM (fun k => let* v := m_item m k in ret (k, v)) ks in
      ret (dupdate [] kvs)
  end.

(** [for x in l: body(x)] *)
Fixpoint each {X} (body : X -> M heap unit) (l : list X) : M heap unit :=
  match l with
  | [] => ret tt
  | x :: r => let* _ := body x in each body r
  end.

(** Select.__call__ -- records/select.py:103-140.  A dict is edited itself, any other mapping
    is copied first. *)
Definition select_on (s : sel V) (m : mapping) : M heap mapping :=
  if negb (fst (sel_truth s)) then ret m else
  let* m := (match m with
             | MDict a => ret (MDict a)
             | _ => let* d := read m in alloc d
             end) in
  match m with
  | MDict a =>
      let* _ := each (fun k => in_place a (do_remove k)) (elements (s_rem s)) in
      let* _ := each (fun k => in_place a (do_mremove k)) (elements (s_mrem s)) in
      let* _ := each (fun p => in_place a (do_rename p)) (elements (s_ren s)) in
      let* _ := each (fun p => in_place a (do_mrename p)) (elements (s_mren s)) in
      let* _ := each (fun p => in_place a (do_add p)) (elements (s_add s)) in
      let* _ := each (fun p => in_place a (do_madd p)) (elements (s_madd s)) in
      ret m
  | _ => raise dangling
  end.

(** SelectableFactory.run -- records/select.py:167-180: [func] gives a mapping, [mk] is the
    class, which is called with the items of the selected mapping *)
Definition run {A} (func : M heap mapping) (s : sel V) (mk : dict V -> M heap A) : M heap A :=
  let* m := func in
  let* m := select_on s m in
  let* d := read m in
  mk d.

(** from_mapping -- records/record.py:431-449: [ChainMap( *maps, dict( **kwargs ))] *)
Definition from_mapping_func (maps : list mapping) (kw : dict V) : M heap mapping :=
  let* k := alloc kw in ret (MChain (maps ++ [k])).
Definition from_mapping_on {A} (s : sel V) (maps : list mapping) (kw : dict V) (mk : dict V -> M heap A) : M heap A :=
  run (from_mapping_func maps kw) s mk.

(** from_instance -- records/record.py:451-476: [extract] is what _to_dict reads from the object;
    it makes a new dict of it, which is then updated *)
Definition from_instance_func (extract : M heap (dict V)) (maps : list mapping) (kw : dict V) : M heap mapping :=
  let* d := extract in
  let* m := alloc d in
  match m, maps with
  | MDict a, [] => let* _ := in_place a (fun d => (Ok tt, dupdate d kw)) in ret m
  | MDict a, [m1] =>
      let* e := read m1 in
      let* _ := in_place a (fun d => (Ok tt, dupdate (dupdate d e) kw)) in ret m
  | _, _ => raise (mkexc TypeError "update expected at most 1 argument")
  end.
Definition from_instance_on {A} (s : sel V) (extract : M heap (dict V)) (maps : list mapping) (kw : dict V)
  (mk : dict V -> M heap A) : M heap A :=
  run (from_instance_func extract maps kw) s mk.

(** Exporter.run -- records/select.py:279-292: [extract] is what _to_dict reads, [func] the
    exporter, which is called with the very dict *)
Definition export_on {A} (s : sel V) (extract : M heap (dict V)) (func : mapping -> M heap A) : M heap A :=
  let* d := extract in
  let* m := alloc d in
  let* m := select_on s m in
  func m.
(** to_dict -- records/record.py:596-605: it returns the dict *)
Definition to_dict_on (s : sel V) (extract : M heap (dict V)) : M heap mapping := export_on s extract ret.

End Dicts.
Arguments cell : clear implicits.
Arguments heap : clear implicits.
