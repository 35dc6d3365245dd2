(** Crowd.v -- constructing, parsing and all other operations of Record.v while other threads
    run.

    Threads.v cuts some operations into steps.  Here the same code of the library (Filler.v,
    Classes.v, Record.v) runs on a run time in which other threads act after every step of
    code that is not the library's: after each operation of an object (==, iteration, calls of
    constructors of containers, json, ...) and after each step of a coercer, validator, default
    factory, parser or post_new, all of which may take any number of steps.  What the library
    itself does between two such calls is one step; of the state of the program it touches the
    attributes of the record it has just made, which no other thread knows, the _hash slots
    (see Threads.v), and the dicts of Literal fillers. *)
From Verif Require Import Base Py Runtime Threads.

Section Crowd.
Context {obj ty W E : Type}.
(** what another thread can do to the state at one time *)
Context (act : E -> W -> W).

(** the state, and what the others will do, one entry for each step of this thread; nothing
    more once the list is empty *)
Definition crowd : Type := (W * list E)%type.

Definition others (s : crowd) : crowd :=
  match s with
  | (w, e :: r) => (act e w, r)
  | (w, []) => (w, [])
  end.

(** [p], with the others acting after every step *)
Fixpoint among {A} (p : @proc W A) : M crowd A :=
  fun s => match p with
           | Done o => (o, s)
           | Step k => match k (fst s) with (p', w') => among p' (others (w', snd s)) end
           end.

(** an operation in one step, after which the others act *)
Definition single {A} (m : M W A) : M crowd A := among (atom m).

(** the run time as fillers see it (Py.v).  [grown] is what happens after a class was added to
    the dict of a Literal filler: the others act, too (or not). *)
Definition crowd_py (grown : crowd -> crowd) (P : Py obj ty W) : Py obj ty crowd := {|
  py_is := py_is P; py_isP := py_isP P; ty_eqb := ty_eqb P; ty_eqP := ty_eqP P;
  type_of := type_of P; isinstance := isinstance P; isabstract := isabstract P; callable := callable P; issubclass := issubclass P;
  o_none := o_none P; o_ellipsis := o_ellipsis P; o_true := o_true P; o_false := o_false P;
  t_bool := t_bool P; t_none := t_none P; t_ellipsis := t_ellipsis P; t_object := t_object P; t_tuple := t_tuple P; t_type := t_type P;
  lit_eq := lit_eq P;
  hash_error := hash_error P;
  eq_int := fun v z => single (eq_int P v z);
  elems := elems P; items := items P;
  rebuild := fun rk v es => single (rebuild P rk v es);
  rebuild_map := fun rk v es => single (rebuild_map P rk v es);
  lit_grown := fun l s => lit_grown P l (fst s);
  lit_grow := fun l t s => grown (lit_grow P l t (fst s), snd s)
|}.

Lemma single_ok : forall {A} (m : M W A) s a s', single m s = (Ok a, s') -> exists w', m (fst s) = (Ok a, w') /\ s' = others (w', snd s).
Proof.
  intros A m [w es] a s' H. unfold single, atom in H. cbn in H. destruct (m w) as [o w'] eqn:EM. cbn in H. injection H as -> <-.
  exists w'. split; [exact EM|reflexivity].
Qed.
End Crowd.

Section CrowdRt.
Context {obj ty W E : Type} (act : E -> W -> W) (R : Rt obj ty W).
Notation single := (single act).

Lemma crowd_unpack_ok : forall x s d s', single (unpack R x) s = (Ok d, s') -> dict_ok d.
Proof. intros x s d s' H. apply single_ok in H. destruct H as (w' & H & _). eapply unpack_ok; exact H. Qed.
Lemma crowd_as_dict_ok : forall x s d s', single (as_dict R x) s = (Ok d, s') -> dict_ok d.
Proof. intros x s d s' H. apply single_ok in H. destruct H as (w' & H & _). eapply as_dict_ok; exact H. Qed.

(** the truth of None is known without a call *)
Definition crowd_truth (x : obj) : M (crowd (W:=W) (E:=E)) bool := if py_is (rt_py R) x (o_none (rt_py R)) then ret false else single (truth R x).
Lemma crowd_truth_none : crowd_truth (o_none (rt_py R)) = ret false.
Proof. unfold crowd_truth. destruct (py_isP (rt_py R) (o_none (rt_py R)) (o_none (rt_py R))) as [_|H]; [reflexivity|destruct (H eq_refl)]. Qed.

Lemma crowd_heap_set : forall h (s : @crowd W E), heap R (fst (set_heap R h (fst s), snd s)) = h.
Proof. intros. apply heap_set. Qed.
Lemma crowd_heap_same : forall s : @crowd W E, (set_heap R (heap R (fst s)) (fst s), snd s) = s.
Proof. intros [w es]. cbn. rewrite set_heap_same. reflexivity. Qed.
Lemma crowd_heap_twice : forall h h' (s : @crowd W E), (set_heap R h (set_heap R h' (fst s)), snd s) = (set_heap R h (fst s), snd s).
Proof. intros h h' [w es]. cbn. rewrite set_heap_twice. reflexivity. Qed.

(** the run time as records see it (Runtime.v).  Simplification: the others do not act right
    after a class was added to the dict of a Literal filler; before anything else that the
    thread does they can act again. *)
Definition crowd_rt : Rt obj ty (@crowd W E) := {|
  rt_py := crowd_py act (fun s => s) (rt_py R);
  heap := fun s => heap R (fst s);
  set_heap := fun h s => (set_heap R h (fst s), snd s);
  heap_set := crowd_heap_set;
  set_heap_same := crowd_heap_same;
  set_heap_twice := crowd_heap_twice;
  heap_grow := fun l t s => heap_grow R l t (fst s);
  ref := ref R; deref := deref R; deref_ref := deref_ref R;
  type_ref := type_ref R; ref_not_none := ref_not_none R; isinstance_type := isinstance_type R;
  truth := crowd_truth; truth_none := crowd_truth_none;
  v_eq := fun x y => single (v_eq R x y);
  v_ne := fun x y => single (v_ne R x y);
  v_cmp := fun o x y => single (v_cmp R o x y);
  ext_cmp := fun o x y => single (ext_cmp R o x y);
  v_hash := fun x => single (v_hash R x);
  tuple_hash := tuple_hash R;
  ext_attr := fun x k => single (ext_attr R x k);
  m_iter := fun m => single (m_iter R m);
  m_item := fun m k => single (m_item R m k);
  unpack := fun x => single (unpack R x);
  as_dict := fun x => single (as_dict R x);
  unpack_ok := crowd_unpack_ok;
  as_dict_ok := crowd_as_dict_ok;
  json_loads := fun x => single (json_loads R x);
  json_dumps := fun d => single (json_dumps R d);
  deep_copy := fun l => single (deep_copy R l);
  pickle_values := fun l => single (pickle_values R l);
  set_order := fun s => set_order R (fst s);
  set_order_perm := fun s => set_order_perm R (fst s);
  int_of := int_of R;
  v_repr := fun x => single (v_repr R x);
  type_name := type_name R
|}.
End CrowdRt.
