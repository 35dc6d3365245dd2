(** Spec_Crowd.v -- what it means that code does not depend on what other threads do. *)
From Verif Require Import Base Py Filler Spec_Filler Spec_State Runtime Threads Crowd.

Section Crowd.
Context {obj ty W E : Type} (act : E -> W -> W).

(** whatever the state at each step of [p], it comes to the outcome [o] *)
Fixpoint always {A} (p : @proc W A) (o : outcome A) : Prop :=
  match p with
  | Done o' => same_outcome o o'
  | Step k => forall w, always (fst (k w)) o
  end.

(** every step of [p] keeps [K] *)
Fixpoint steps_keep (K : W -> W -> Prop) {A} (p : @proc W A) : Prop :=
  match p with
  | Done _ => True
  | Step k => forall w, K w (snd (k w)) /\ steps_keep K (fst (k w))
  end.

(** the callbacks of a token take steps; each has the same outcome whatever happens between
    its steps *)
Definition steady (f : @callback obj (@crowd W E)) : Prop :=
  forall x, exists p o, always p o /\ forall s, f x s = among act p s.
Fixpoint ctoken_steady (c : @ctoken obj ty (@crowd W E)) : Prop :=
  match c with
  | CGlobal g => forall o f, g o = Ok f -> steady f
  | CCompose cs => (fix all l := match l with [] => True | c :: r => ctoken_steady c /\ all r end) cs
  | _ => True
  end.
Definition token_steady (t : @token obj ty (@crowd W E)) : Prop :=
  match t with
  | TCoerce c => ctoken_steady c
  | TValid (VGlobal g) => forall o f, g o = Ok f -> steady f
  | _ => True
  end.
End Crowd.
