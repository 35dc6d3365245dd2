(** DemoCls.v -- record classes for the concrete run time of DemoRt.v. *)
From Verif Require Import Base Py Filler Classes Runtime Demo DemoRt.
Open Scope string_scope.
Open Scope list_scope.

(** a record class with the given options, fields (name, annotation, default) and hooks *)
Definition rdecl (n : nat) (frozen ordered : bool) (unary : option bool) (s : style)
    (fs : list (string * (@ann dobj dty rstate * @default dobj rstate)))
    (ps : dict (dobj -> M rstate dobj)) (post : dobj -> M rstate dobj) : @decl dobj dty rstate :=
  Decl (TRec n) frozen ordered unary s (map (fun f => (fst f, fst (snd f))) fs) []
       (fun k => match dget k fs with Some f => snd f | None => NoDefault end)
       [BOther] [] ps post.

Definition no_class : @cls dobj dty rstate := Cls TNone [] true false false false SCheck [] (fun _ => ret DNone).
Definition made_of (d : @decl dobj dty rstate) : @cls dobj dty rstate :=
  match make_class rt0 d with Ok c => c | Raise _ => no_class end.

Definition no_post : dobj -> M rstate dobj := fun _ => ret DNone.
Definition an (t : dty) : @ann dobj dty rstate := AHint (HTy t) [].
Definition w0 : rstate := RState [] [] [].
