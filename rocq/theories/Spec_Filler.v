(** Spec_Filler.v -- what the fillers are supposed to guarantee, stated over type
    annotations and Python objects only: nothing here mentions fillers, binding or
    the filling algorithm. *)
From Verif Require Import Base Py Filler.

(** some element satisfies [p], which is also told its position *)
Section AnyI.
Context {A : Type} (p : nat -> A -> Prop).
Fixpoint any_i (i : nat) (l : list A) : Prop :=
  match l with [] => False | a :: r => p i a \/ any_i (S i) r end.
End AnyI.

(** the two lists have the same length and corresponding elements are related *)
Section All2I.
Context {A B : Type} (p : nat -> A -> B -> Prop).
Fixpoint all2_i (i : nat) (l : list A) (m : list B) : Prop :=
  match l, m with
  | [], [] => True
  | a :: r, b :: s => p i a b /\ all2_i (S i) r s
  | _, _ => False
  end.
End All2I.

Section Spec.
Context {obj ty W : Type} (P : Py obj ty W).
Notation token := (@token obj ty W).
Notation hint := (@hint obj ty W).
Notation origin := (@origin ty).

(** The type-check style in force after the tokens [ts]: the last style token wins,
    without one the default of the class applies. *)
Definition last_style (ts : list token) : style :=
  fold_left (fun acc t => match t with TStyle s => s | _ => acc end) ts SDefault.

Definition eff_style (dflt : style) (ts : list token) : style :=
  match last_style ts with SDefault => dflt | s => s end.

Definition is_coercion (t : token) : bool := match t with TCoerce _ => true | _ => false end.
Definition has_coercer (ts : list token) : bool := existsb is_coercion ts.

(** [v] is an instance of class [t] in the sense of the style *)
Definition class_ok (s : style) (t : ty) (v : obj) : Prop :=
  match s with
  | SHollow => True
  | SCheck => type_of P v = t \/ isinstance P v t = true
  | SStrict => type_of P v = t
  | SDefault => False
  end.

(** a condition that only matters under a style that checks *)
Definition checked (s : style) (c : Prop) : Prop :=
  match s with SHollow => True | SDefault => False | SCheck | SStrict => c end.

Definition class_conforms (s : style) (ts : list token) (t : ty) (v : obj) : Prop :=
  if ty_eqb P t (t_none P) then checked s (has_coercer ts = true \/ v = o_none P)
  else if ty_eqb P t (t_ellipsis P) then checked s (has_coercer ts = true \/ v = o_ellipsis P)
  else class_ok s t v.

Definition no_sub_tokens : nat -> list token := fun _ => [].

(** [conforms_with L dflt sub pre own h v]: the value [v] is one that the annotation
    [h] promises, where [dflt] is the default style of the class, [own] are the
    tokens of an enclosing Annotated, [pre] those that were applied to the field (or
    that come down from an enclosing Union) and [sub i] those applied to its i-th
    part.  None, Ellipsis and callable fields that carry coercers promise nothing
    about the type (C03).  [L ts o v] is an additional promise about the values of
    checked non-container annotations with tokens [ts] and origin [o]. *)
Section With.
Variable L : list token -> origin -> obj -> Prop.

Fixpoint conforms_with (dflt : style) (sub : nat -> list token) (pre own : list token)
    (h : hint) (v : obj) : Prop :=
  let ts := pre ++ own in
  let s := eff_style dflt ts in
  match h with
  | HAnn h' toks => conforms_with dflt sub pre (toks ++ own) h' v
  | HTy t | HBare t =>
      (if ty_eqb P t (t_bool P) then class_ok s t v else class_conforms s ts t v)
      /\ checked s (L ts (OTy t) v)
  | HNone => checked s ((has_coercer ts = true \/ v = o_none P) /\ L ts (OTy (t_none P)) v)
  | HCallable => checked s ((has_coercer ts = true \/ callable P v = true) /\ L ts OCallable v)
  | HAny => class_ok s (t_object P) v /\ checked s (L ts (OTy (t_object P)) v)
  | HNewType h' => match h' with HAnn _ _ => True | _ => conforms_with dflt sub pre own h' v end
  | HUnion hs =>
      match hs with
      | [] => True (* no such annotation *)
      | _ => any_i (fun i h' => conforms_with dflt no_sub_tokens (sub i ++ own ++ pre) [] h' v) 0 hs
      end
  | HLiteral _ vals =>
      checked s ((exists l, In l vals /\ type_of P v = type_of P l /\ lit_eq P v l = true) /\ L ts OLiteral v)
  | HType base =>
      class_ok s (t_type P) v /\
      checked s (issubclass P v base = Ok true /\ L ts (OTy (t_type P)) v)
  | HTupleN hs =>
      class_ok s (t_tuple P) v /\
      checked s (exists l, elems P v = Some l /\
                 all2_i (fun i h' e => conforms_with dflt no_sub_tokens (sub i) [] h' e) 0 hs l)
  | HTupleV h' =>
      class_ok s (t_tuple P) v /\
      checked s (forall l e, elems P v = Some l -> In e l -> conforms_with dflt no_sub_tokens (sub 0) [] h' e)
  | HIter _ t h' =>
      class_ok s t v /\
      checked s (forall l e, elems P v = Some l -> In e l -> conforms_with dflt no_sub_tokens (sub 0) [] h' e)
  | HMap _ t hk hv =>
      class_ok s t v /\
      checked s (forall l k e, items P v = Some l -> In (k, e) l ->
                   conforms_with dflt no_sub_tokens (sub 0) [] hk k /\
                   conforms_with dflt no_sub_tokens (sub 1) [] hv e)
  | HGenN t _ => class_ok s t v /\ checked s (L ts (OTy t) v)
  | HOther => True
  end.
End With.

(** only the types *)
Definition conforms := conforms_with (fun _ _ _ => True).

(** every validator among the tokens was run on [v] and returned it *)
Definition accepted (ts : list token) (o : origin) (v : obj) : Prop :=
  forall g f, In (TValid (VGlobal g)) ts -> g o = Ok f -> exists w w', f v w = (Ok v, w').

(** the types and the validators *)
Definition vetted := conforms_with accepted.

(** the annotation accepts any object whatsoever without looking at its type *)
Section AllI.
Context {A : Type} (p : nat -> A -> bool).
Fixpoint all_i (i : nat) (l : list A) : bool :=
  match l with [] => true | a :: r => p i a && all_i (S i) r end.
End AllI.

Fixpoint hollow_hint (dflt : style) (sub : nat -> list token) (pre own : list token) (h : hint) : bool :=
  match h with
  | HAnn h' toks => hollow_hint dflt sub pre (toks ++ own) h'
  | HNewType h' => match h' with HAnn _ _ => true | _ => hollow_hint dflt sub pre own h' end
  | HUnion hs => all_i (fun i h' => hollow_hint dflt no_sub_tokens (sub i ++ own ++ pre) [] h') 0 hs
  | HOther => true
  | _ => style_eqb (eff_style dflt (pre ++ own)) SHollow
  end.

(** no validator was attached to the annotation (to its Union members, if it is a Union) *)
Definition is_validation (t : token) : bool := match t with TValid _ => true | _ => false end.

Fixpoint unvalidated (sub : nat -> list token) (pre own : list token) (h : hint) : bool :=
  match h with
  | HAnn h' toks => unvalidated sub pre (toks ++ own) h'
  | HNewType h' => match h' with HAnn _ _ => true | _ => unvalidated sub pre own h' end
  | HUnion hs => all_i (fun i h' => unvalidated no_sub_tokens (sub i ++ own ++ pre) [] h') 0 hs
  | HOther => true
  | _ => negb (existsb is_validation (pre ++ own))
  end.

(** [consistent dflt sub pre own h]: no part of the annotation contradicts itself: no
    hollow annotation has coercers, no strict one names an abstract class, no hollow
    container has elements that are checked, the parts of a generic class records knows
    nothing about are hollow, and what is not a type has no tokens and stands in a hollow
    class. *)
Fixpoint consistent (dflt : style) (sub : nat -> list token) (pre own : list token) (h : hint) : bool :=
  let ts := pre ++ own in
  let s := eff_style dflt ts in
  let hollow := style_eqb s SHollow in
  let plain := negb (hollow && has_coercer ts) in
  let class t := plain && negb (style_eqb s SStrict && isabstract P t) in
  let elems_hollow i h' := hollow_hint dflt no_sub_tokens (sub i) [] h' in
  let no_type := match ts with [] => style_eqb dflt SHollow | _ => false end in
  match h with
  | HAnn h' toks => consistent dflt sub pre (toks ++ own) h'
  | HNewType h' => match h' with HAnn _ _ => no_type | _ => consistent dflt sub pre own h' end
  | HUnion hs => all_i (fun i h' => consistent dflt no_sub_tokens (sub i ++ own ++ pre) [] h') 0 hs
  | HOther => no_type
  | HTy t | HBare t => class t
  | HAny => class (t_object P)
  | HNone => class (t_none P)
  | HCallable | HLiteral _ _ => plain
  | HType _ => class (t_type P)
  | HTupleN hs =>
      class (t_tuple P) && all_i (fun i h' => consistent dflt no_sub_tokens (sub i) [] h') 0 hs &&
      (negb hollow || all_i elems_hollow 0 hs)
  | HTupleV h' =>
      class (t_tuple P) && consistent dflt no_sub_tokens (sub 0) [] h' && (negb hollow || elems_hollow 0 h')
  | HIter _ t h' =>
      class t && consistent dflt no_sub_tokens (sub 0) [] h' && (negb hollow || elems_hollow 0 h')
  | HMap _ t hk hv =>
      class t && consistent dflt no_sub_tokens (sub 0) [] hk && consistent dflt no_sub_tokens (sub 1) [] hv &&
      (negb hollow || (elems_hollow 0 hk && elems_hollow 1 hv))
  | HGenN t hs =>
      class t && all_i (fun _ h' => consistent dflt no_sub_tokens [] [] h') 0 hs &&
      all_i (fun _ h' => hollow_hint dflt no_sub_tokens [] [] h') 0 hs
  end.

(** a token that every annotation understands *)
Definition understood (t : token) : Prop :=
  match t with
  | TStyle _ | TOther => True
  | TCoerce (CGlobal g) => forall o, exists f, g o = Ok f
  | TValid (VGlobal g) => forall o, exists f, g o = Ok f
  | _ => False
  end.

(** ** What tokens stand for *)

(** [f1(f2(...fn(x)))] *)
Fixpoint compose (fs : list (obj -> M W obj)) (x : obj) : M W obj :=
  match fs with [] => ret x | f :: r => let* y := compose r x in f y end.

(** FromInteger on a bool field: what it does to a value is determined by [v == 0] and [v == 1] *)
Definition bool_of_integer (v : obj) : M W obj :=
  let* zero := eq_int P v 0 in
  if zero : bool then ret (o_false P) else
  let* one := eq_int P v 1 in
  if one : bool then ret (o_true P) else raise (mkexc TypeError "").

(** [yields o c f]: on a field of origin [o] the coercion token [c] stands for the
    callable [f] *)
Inductive yields (o : origin) : @ctoken obj ty W -> (obj -> M W obj) -> Prop :=
| yields_global g f : g o = Ok f -> yields o (CGlobal g) f
| yields_integer f : o = OTy (t_bool P) -> (forall x w, f x w = bool_of_integer x w) -> yields o CFromInteger f
| yields_compose cs fs f : Forall2 (yields o) cs fs -> (forall x w, f x w = compose fs x w) -> yields o (CCompose cs) f.

Definition coercion_tokens (ts : list token) : list (@ctoken obj ty W) :=
  flat_map (fun t => match t with TCoerce c => [c] | _ => [] end) ts.
Definition validation_tokens (ts : list token) : list (@vtoken obj ty W) :=
  flat_map (fun t => match t with TValid v => [v] | _ => [] end) ts.

(** the coercers / validators that the tokens [ts] declare for a field of origin [o], in order *)
Definition declared_coercers (o : origin) (ts : list token) (cs : list (obj -> M W obj)) : Prop :=
  Forall2 (yields o) (coercion_tokens ts) cs.
Definition declared_validators (o : origin) (ts : list token) (vs : list (obj -> M W obj)) : Prop :=
  Forall2 (fun v f => match v with VGlobal g => g o = Ok f | VBad => False end) (validation_tokens ts) vs.

(** the same tokens without the validators *)
Definition without_validators (ts : list token) : list token := filter (fun t => negb (is_validation t)) ts.

(** run [vs] one after the other, each on what the previous one returned *)
Fixpoint in_order (vs : list (obj -> M W obj)) (x : obj) : M W obj :=
  match vs with [] => ret x | v :: r => let* y := v x in in_order r y end.

(** ** Coercion *)

(** [tried ok cs x w y w1]: the coercers [cs] were called one after the other,
    starting with argument [x] in state [w]; each failed, that is it raised an
    Exception or returned an object that is not [ok]; the next coercer is given the
    argument [y] in state [w1]. *)
Inductive tried (ok : obj -> Prop) : list (obj -> M W obj) -> obj -> W -> obj -> W -> Prop :=
| tried_nil x w : tried ok [] x w x w
| tried_raised c cs x w e w1 y w2 :
    c x w = (Raise e, w1) -> is_Exception e = true -> tried ok cs x w1 y w2 -> tried ok (c :: cs) x w y w2
| tried_wrong c cs x w z w1 y w2 :
    c x w = (Ok z, w1) -> ~ ok z -> tried ok cs z w1 y w2 -> tried ok (c :: cs) x w y w2.

(** the same, but every coercer is given the argument [x] itself *)
Inductive offered (ok : obj -> Prop) (x : obj) : list (obj -> M W obj) -> W -> W -> Prop :=
| offered_nil w : offered ok x [] w w
| offered_raised c cs w e w1 w2 :
    c x w = (Raise e, w1) -> is_Exception e = true -> offered ok x cs w1 w2 -> offered ok x (c :: cs) w w2
| offered_wrong c cs w z w1 w2 :
    c x w = (Ok z, w1) -> ~ ok z -> offered ok x cs w1 w2 -> offered ok x (c :: cs) w w2.

(** ** Unions *)

(** try every member on [x], in order, and collect what each of them did; only
    an exception that is not an Exception interrupts this *)
Fixpoint attempts (fs : list (obj -> M W (obj * tpk))) (x : obj) : M W (list (outcome (obj * tpk))) :=
  match fs with
  | [] => ret []
  | f :: r => fun w =>
      match f x w with
      | (Ok p, w1) => (let* os := attempts r x in ret (Ok p :: os)) w1
      | (Raise e, w1) =>
          if is_Exception e then (let* os := attempts r x in ret (Raise e :: os)) w1 else (Raise e, w1)
      end
  end.

Definition successes (os : list (outcome (obj * tpk))) : list (obj * tpk) :=
  flat_map (fun o => match o with Ok p => [p] | Raise _ => [] end) os.

(** the successes that no other success beats *)
Definition winners (ss : list (obj * tpk)) : list (obj * tpk) :=
  filter (fun s => forallb (fun s' => Nat.leb (tpk_rank (snd s)) (tpk_rank (snd s'))) ss) ss.

(** what a Union makes of its members' outcomes *)
Definition verdict (os : list (outcome (obj * tpk))) : outcome obj :=
  match winners (successes os) with
  | [] => match last os (Raise (mkexc LookupError "list index out of range")) with Raise e => Raise e | Ok p => Ok (fst p) end
  | (v, _) :: r =>
      if forallb (fun s => py_is P (fst s) v) r then Ok v
      else Raise (mkexc ValueError "multiple sub-fillers matched")
  end.

(** ** Containers *)

Fixpoint same_objects (l l' : list obj) : bool :=
  match l, l' with
  | [], [] => true
  | a :: r, b :: s => py_is P a b && same_objects r s
  | _, _ => false
  end.

Fixpoint same_pairs (l l' : list (obj * obj)) : bool :=
  match l, l' with
  | [], [] => true
  | a :: r, b :: s => py_is P (fst a) (fst b) && py_is P (snd a) (snd b) && same_pairs r s
  | _, _ => false
  end.

(** fill every element, in order; keep the container if no element changed, else build
    one of the same class from the new elements *)
Definition fill_elements (rk : rebuild_kind) (elt : obj -> M W obj) (z : obj) : M W obj :=
  match elems P z with
  | None => raise (mkexc TypeError "object is not iterable")
  | Some l => let* l' := mapM elt l in if same_objects l l' then ret z else rebuild P rk z l'
  end.

(** apply the i-th function to the i-th element *)
Fixpoint zipM (fs : list (obj -> M W obj)) (l : list obj) : M W (list obj) :=
  match fs, l with
  | f :: fr, e :: r => let* e' := f e in let* s := zipM fr r in ret (e' :: s)
  | _, _ => ret []
  end.

Definition check_length (n : nat) (z : obj) : M W obj :=
  match elems P z with
  | None => raise (mkexc TypeError "object is not iterable")
  | Some l => if Nat.eqb (List.length l) n then ret z else raise (mkexc ValueError "must be an n-tuple")
  end.

Definition fill_positions (fs : list (obj -> M W obj)) (z : obj) : M W obj :=
  match elems P z with
  | None => raise (mkexc TypeError "object is not iterable")
  | Some l =>
      if Nat.eqb (List.length l) (List.length fs)
      then let* l' := zipM fs l in if same_objects l l' then ret z else rebuild P RkPlain z l'
      else raise (mkexc ValueError "must be an n-tuple")
  end.

Definition fill_items (rk : rebuild_kind) (fk fv : obj -> M W obj) (z : obj) : M W obj :=
  match items P z with
  | None => raise (mkexc AttributeError "items")
  | Some l =>
      let* l' := mapM (fun kv => let* k := fk (fst kv) in let* v := fv (snd kv) in ret (k, v)) l in
      if same_pairs l l' then ret z else rebuild_map P rk z l'
  end.

(** a class that has no filler of its own *)
Definition plain_class (t : ty) : Prop := t <> t_bool P /\ t <> t_none P /\ t <> t_ellipsis P.

(** the members of a Union and the tokens that were applied to each of them by its position *)
Fixpoint member_decls (ops : list (option nat * token)) (i : nat) (hs : list hint) : list (hint * list token) :=
  match hs with
  | [] => []
  | h :: r => (h, flat_map (fun kt => match fst kt with Some j => if Nat.eqb i j then [snd kt] else [] | None => [] end) ops)
              :: member_decls ops (S i) r
  end.

(** ** Interrupts *)

(** [pending w] is the exception that is not an Exception (KeyboardInterrupt, ...) that was
    raised and has not left the program yet.  A computation that keeps it: started with
    none pending, it leaves one pending exactly if it raises it. *)
Definition keeps_interrupts {A} (pending : W -> option exc) (m : M W A) : Prop :=
  forall w, pending w = None ->
    match m w with
    | (Ok _, w') => pending w' = None
    | (Raise e, w') => pending w' = if is_Exception e then None else Some e
    end.

Fixpoint coercer_keeps (pending : W -> option exc) (c : @ctoken obj ty W) : Prop :=
  match c with
  | CGlobal g => forall o f, g o = Ok f -> forall x, keeps_interrupts pending (f x)
  | CCompose cs => (fix all l := match l with [] => True | c :: r => coercer_keeps pending c /\ all r end) cs
  | _ => True
  end.

Definition token_keeps (pending : W -> option exc) (t : token) : Prop :=
  match t with
  | TCoerce c => coercer_keeps pending c
  | TValid (VGlobal g) => forall o f, g o = Ok f -> forall x, keeps_interrupts pending (f x)
  | _ => True
  end.

Definition runtime_keeps (pending : W -> option exc) : Prop :=
  (forall rk v es, keeps_interrupts pending (rebuild P rk v es)) /\
  (forall rk v es, keeps_interrupts pending (rebuild_map P rk v es)) /\
  (forall v z, keeps_interrupts pending (eq_int P v z)) /\
  (forall v b, match issubclass P v b with Raise e => is_Exception e = true | Ok _ => True end) /\
  (forall v e, hash_error P v = Some e -> is_Exception e = true) /\
  (forall l t w, pending (lit_grow P l t w) = pending w).

(** all tokens that occur anywhere in an annotation *)
Fixpoint hint_tokens (h : hint) : list token :=
  match h with
  | HAnn h' toks => hint_tokens h' ++ toks
  | HNewType h' | HTupleV h' | HIter _ _ h' => hint_tokens h'
  | HUnion hs | HTupleN hs | HGenN _ hs => flat_map hint_tokens hs
  | HMap _ _ hk hv => hint_tokens hk ++ hint_tokens hv
  | _ => []
  end.

(** a validator that only asserts: if it returns, it returns the object it was given *)
Definition asserting_callback (f : obj -> M W obj) : Prop :=
  forall x w y w', f x w = (Ok y, w') -> y = x.

Definition asserting (t : token) : Prop :=
  match t with
  | TValid (VGlobal g) => forall o f, g o = Ok f -> asserting_callback f
  | _ => True
  end.

(** What is assumed of the constructors of container classes: [type(v)(elements)]
    returns an object of the class of [v], whose elements are among those given; for
    tuples they are exactly those given, in order. *)
Definition honest_containers : Prop :=
  (forall rk v es w r w', rebuild P rk v es w = (Ok r, w') ->
     type_of P r = type_of P v /\ (forall t, isinstance P r t = isinstance P v t) /\
     (forall l, elems P r = Some l -> incl l es) /\
     ((type_of P v = t_tuple P \/ isinstance P v (t_tuple P) = true) -> elems P r = Some es)) /\
  (forall rk v es w r w', rebuild_map P rk v es w = (Ok r, w') ->
     type_of P r = type_of P v /\ (forall t, isinstance P r t = isinstance P v t) /\
     (forall l, items P r = Some l -> incl (map fst l) (map fst es) /\ incl (map snd l) (map snd es))).

(** the tokens applied to the field itself and to its [i]-th part, by a list of
    add_validator / add_assert_validator / add_coercer calls *)
Definition own_ops (ops : list (option nat * token)) : list token :=
  flat_map (fun kt => match fst kt with None => [snd kt] | Some _ => [] end) ops.
Definition sub_ops (ops : list (option nat * token)) (i : nat) : list token :=
  flat_map (fun kt => match fst kt with Some j => if Nat.eqb i j then [snd kt] else [] | None => [] end) ops.

(** the filler one gets by asking for sub-fillers along a path of keys *)
Fixpoint reach (path : list (option nat)) (f : @filler obj ty W) : outcome (@filler obj ty W) :=
  match path with [] => Ok f | k :: r => do g <- sub_filler f k; reach r g end.

(** the field itself gets the tokens [ts], its parts get none *)
Definition own_only (ts : list token) : list (option nat * token) := map (fun t => (None, t)) ts.

(** How well an argument matches an annotation: exactly, by being an instance of a
    subclass, only through a coercer, or not at all because nothing is checked. *)
Definition fits (s : style) (exact inst : bool) : tpk :=
  match s with
  | SHollow => PHollow
  | _ => if exact then PStrict else if style_eqb s SCheck && inst then PNoCoerce else PCoerce
  end.

(** The match of [x] with the annotation [h] under the tokens [pre] and [own]; None for
    Unions, and for Literals none of whose values has the class of [x] *)
Fixpoint match_kind (dflt : style) (pre own : list token) (h : hint) (x : obj) : option tpk :=
  let s := eff_style dflt (pre ++ own) in
  let class t := Some (fits s (ty_eqb P (type_of P x) t) (isinstance P x t)) in
  let named t := if ty_eqb P t (t_bool P) then class t
                 else if ty_eqb P t (t_none P) then Some (fits s (py_is P x (o_none P)) false)
                 else if ty_eqb P t (t_ellipsis P) then Some (fits s (py_is P x (o_ellipsis P)) false)
                 else class t in
  match h with
  | HAnn h' toks => match_kind dflt pre (toks ++ own) h' x
  | HNewType h' => match h' with HAnn _ _ => Some PHollow | _ => match_kind dflt pre own h' x end
  | HTy t | HBare t => named t
  | HNone => Some (fits s (py_is P x (o_none P)) false)
  | HCallable => Some (fits s (callable P x) false)
  | HAny => class (t_object P)
  | HType _ => class (t_type P)
  | HTupleN _ | HTupleV _ => class (t_tuple P)
  | HIter _ t _ | HMap _ t _ _ | HGenN t _ => class t
  | HLiteral _ vals =>
      match s with
      | SHollow => Some PHollow
      | _ => if existsb (fun l => ty_eqb P (type_of P x) (type_of P l)) vals then Some PStrict else None
      end
  | HUnion _ => None
  | HOther => Some PHollow
  end.

End Spec.
