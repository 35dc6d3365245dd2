(** Streams.v -- model of the exports to and imports from files, records/record.py:507-566 and
    607-642.

    Simplifications: a file that is written to is what has been written so far, a file that is
    read from is what is still to be read, as str or bytes; encoders and decoders are run by
    the library only, and do not touch the file otherwise. *)
From Verif Require Import Base Py Select Filler Classes Runtime Record.
Open Scope string_scope.
Open Scope list_scope.

Section Streams.
Context {obj ty W : Type} (R : Rt obj ty W).
Notation P := (rt_py R).
Notation cls := (@cls obj ty W).
Context (ctx : ty -> option cls).

(** the generator that an encoder is: it gives the text piece by piece and may raise in
    between.  It runs arbitrary code, such as a function given as [default]. *)
Inductive pieces :=
| Stop
| Fail (e : exc)
| Yield (s : string) (resume : W -> pieces * W).

(** ["".join(pieces)], as in json.dumps and pickle.dumps *)
Fixpoint join (g : pieces) : M W string :=
  match g with
  | Stop => ret ""
  | Fail e => raise e
  | Yield s k => fun w => let (g', w') := k w in (let* t := join g' in ret (s ++ t)%string) w'
  end.

(** a file to write to: what [write(s)] does to its contents *)
Definition device := string -> string -> outcome unit * string.

(** [for chunk in pieces: fp.write(chunk)], as in json.dump and pickle.dump *)
Fixpoint write_pieces (dev : device) (g : pieces) : M (W * string) unit :=
  match g with
  | Stop => ret tt
  | Fail e => raise e
  | Yield s k => fun wc =>
      let (w, c) := wc in
      match dev c s with
      | (Raise e, c') => (Raise e, (w, c'))
      | (Ok _, c') => let (g', w') := k w in write_pieces dev g' (w', c')
      end
  end.

(** code that does not use the file *)
Definition aside {A} (m : M W A) : M (W * string) A :=
  fun wc => let (w, c) := wc in let (r, w') := m w in (r, (w', c)).

(** The modules json and pickle.  [json_pieces d args kwargs] and [pickle_pieces]: the encoders
    behind dump and dumps; [json_parse]: json.loads of a text; [pickle_parse]: pickle.load,
    which leaves the file behind the first pickle. *)
Record Codecs := {
  text : string -> obj;
  json_pieces : dict obj -> list obj -> dict obj -> M W pieces;
  json_parse : obj -> dict obj -> M W obj;
  pickle_pieces : obj -> list obj -> dict obj -> M W pieces;
  pickle_parse : list obj -> dict obj -> M (W * string) obj
}.
Context (C : Codecs).

(** p.to_json(...) without and with io -- records/record.py:607-626 *)
Definition to_json_text (x : obj) (a : export_args) (s : sel obj) (args : list obj) (kw : dict obj) : M W string :=
  let* d := to_dict R ctx x a s in
  let* g := json_pieces C d args kw in
  join g.
Definition to_json_io (dev : device) (x : obj) (a : export_args) (s : sel obj) (args : list obj) (kw : dict obj) : M (W * string) unit :=
  let* d := aside (to_dict R ctx x a s) in
  let* g := aside (json_pieces C d args kw) in
  write_pieces dev g.

(** p.to_pickle(...) without and with io -- records/record.py:628-642 *)
Definition to_pickle (x : obj) (args : list obj) (kw : dict obj) : M W string :=
  let* g := pickle_pieces C x args kw in join g.
Definition to_pickle_io (dev : device) (x : obj) (args : list obj) (kw : dict obj) : M (W * string) unit :=
  let* g := aside (pickle_pieces C x args kw) in write_pieces dev g.

(** what the factory does with the loaded object -- records/select.py:112-115, 161-171 *)
Definition from_loaded (fuel : nat) (c : cls) (s : sel obj) (x : obj) : M W obj :=
  let* d := (if fst (sel_truth s) then as_dict R x else unpack R x) in
  let* d := lift (sel_apply s d) in
  construct R fuel c None d.

(** cls.from_json(v, ...) and cls.from_json_io(f, ...) -- records/record.py:487-521; json.load
    is json.loads of [fp.read()] *)
Definition from_json_text (fuel : nat) (c : cls) (s : sel obj) (v : obj) (kw : dict obj) : M W obj :=
  let* x := json_parse C v kw in from_loaded fuel c s x.
Definition read_rest : M (W * string) string := fun wc => let (w, r) := wc in (Ok r, (w, "")).
Definition from_json_io (fuel : nat) (c : cls) (s : sel obj) (kw : dict obj) : M (W * string) obj :=
  let* t := read_rest in
  let* x := aside (json_parse C (text C t) kw) in aside (from_loaded fuel c s x).

(** cls.from_pickle(v, ...) and cls.from_pickle_io(f, ...) -- records/record.py:524-566;
    pickle.loads ignores what follows the first pickle *)
Definition from_pickle (fuel : nat) (c : cls) (b : string) (args : list obj) (kw : dict obj) : M W obj :=
  fun w => let (r, wc) := pickle_parse C args kw (w, b) in
           match r with
           | Ok v => from_pickled R fuel c v (fst wc)
           | Raise e => (Raise e, fst wc)
           end.
Definition from_pickle_io (fuel : nat) (c : cls) (args : list obj) (kw : dict obj) : M (W * string) obj :=
  let* v := pickle_parse C args kw in aside (from_pickled R fuel c v).

End Streams.
