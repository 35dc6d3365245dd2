(** DemoRt.v -- a small concrete run time with a heap of record instances, used only to
    show that hypotheses can be met and to refute claims the code does not keep. *)
From Verif Require Import Base Py Runtime Demo.
From Verif Require Dict_proofs.
Open Scope string_scope.
Open Scope list_scope.

Record rstate := RState {
  rs_lit : list (nat * dty);
  rs_heap : list (inst dobj dty);
  rs_log : list dobj
}.
Definition rt0 : Py dobj dty rstate :=
  demo rs_lit (fun l w => RState l (rs_heap w) (rs_log w)).

Fixpoint names_of (l : list dobj) : option (list string) :=
  match l with
  | [] => Some []
  | DStr s :: r => match names_of r with Some ks => Some (s :: ks) | None => None end
  | _ => None
  end.
Fixpoint nodupb (ks : list string) : bool :=
  match ks with [] => true | k :: r => negb (smem k r) && nodupb r end.
Definition dict_of (x : dobj) : option (dict dobj) :=
  match x with
  | DDict l => match names_of (map fst (pairs l)) with
               | Some ks => if nodupb ks then Some (combine ks (map snd (pairs l))) else None
               | None => None
               end
  | _ => None
  end.
Definition mapping (d : dict dobj) : dobj := ddict (map (fun kv => (DStr (fst kv), snd kv)) d).

Lemma names_len : forall l ks, names_of l = Some ks -> List.length ks = List.length l.
Proof.
  induction l as [|x r IH]; intros ks H; cbn in H; [injection H as <-; reflexivity|].
  destruct x; try discriminate. destruct (names_of r) as [ks'|]; [|discriminate]. injection H as <-. cbn. f_equal. auto.
Qed.
Lemma keys_combine : forall {A} (ks : list string) (vs : list A), List.length ks = List.length vs -> keys (combine ks vs) = ks.
Proof. unfold keys. induction ks as [|k r IH]; intros [|v s] H; cbn in *; try discriminate; [reflexivity|]. f_equal. apply IH. lia. Qed.
Lemma dict_of_ok : forall x d, dict_of x = Some d -> dict_ok d.
Proof.
  intros x d H. unfold dict_of in H. destruct x; try discriminate.
  destruct (names_of (map fst (pairs x))) as [ks|] eqn:E; [|discriminate].
  destruct (nodupb ks) eqn:EN; [|discriminate]. injection H as <-.
  assert (ND : NoDup ks).
  { clear - EN. induction ks as [|k r IH]; [constructor|]. cbn in EN. apply andb_true_iff in EN. destruct EN as [E1 E2].
    constructor; [|auto]. intro HI. apply negb_true_iff in E1. apply Dict_proofs.smem_In in HI. congruence. }
  unfold dict_ok. rewrite keys_combine; [assumption|]. apply names_len in E. rewrite E, !map_length. reflexivity.
Qed.

(** dict(x), which also takes a list of pairs *)
Fixpoint flat_pairs (l : list dobj) : option (list dobj) :=
  match l with
  | [] => Some []
  | (DTuple (DCons k (DCons v DNil)) | DList (DCons k (DCons v DNil))) :: r =>
      match flat_pairs r with Some s => Some (k :: v :: s) | None => None end
  | _ => None
  end.
Definition to_dict_of_pairs (x : dobj) : option (dict dobj) :=
  match x with
  | DList l => match flat_pairs (unchain l) with Some s => dict_of (DDict (chain s)) | None => None end
  | _ => dict_of x
  end.
Lemma to_dict_of_pairs_ok : forall x d, to_dict_of_pairs x = Some d -> dict_ok d.
Proof.
  intros x d H. unfold to_dict_of_pairs in H. destruct x as [| | | | | | | | |l| | | |]; try exact (dict_of_ok _ _ H).
  destruct (flat_pairs (unchain l)); [|discriminate]. exact (dict_of_ok _ _ H).
Qed.

Definition type_error {A} : M rstate A := raise (mkexc TypeError "").

Definition dcmp (op : cmp) (x y : dobj) : M rstate bool :=
  match dint x, dint y with
  | Some a, Some b => ret (match op with CLt => Z.ltb a b | CLe => Z.leb a b | CGt => Z.ltb b a | CGe => Z.leb b a end)
  | _, _ => type_error
  end.

(** hashes of strings depend on the seed of the process; lists and dicts have none *)
Definition dhash (seed : Z) (x : dobj) : M rstate Z :=
  match x with
  | DInt z | DSub z => ret z
  | DBool b => ret (if b then 1 else 0)%Z
  | DStr s => ret (seed + Z.of_nat (String.length s))%Z
  | DRef _ n => ret (Z.of_nat n)
  | DList _ | DDict _ => type_error
  | _ => ret 0%Z
  end.

Definition demo_rt (seed : Z) : Rt dobj dty rstate.
Proof.
  refine {|
    rt_py := rt0;
    heap := rs_heap;
    set_heap := fun h w => RState (rs_lit w) h (rs_log w);
    ref := DRef;
    deref := fun x => match x with DRef _ n => Some n | _ => None end;
    (* instances of class 9 are false *)
    truth := fun x => ret (match x with
                           | DNone => false | DBool b => b | DInt z => negb (Z.eqb z 0)
                           | DStr s => negb (String.eqb s "") | DRef (TRec 9) _ => false | _ => true end);
    v_eq := fun x y => ret (dlit_eq x y);
    v_ne := fun x y => ret (negb (dlit_eq x y));
    v_cmp := dcmp;
    ext_cmp := fun _ _ _ => ret None;
    v_hash := dhash seed;
    tuple_hash := fun l => fold_left (fun h z => h * 31 + z)%Z l 17%Z;
    ext_attr := fun x k => match x with
                           | DFun n => if String.eqb k "x" then ret (DInt (Z.of_nat n)) else
                                       if String.eqb k "boom" then raise (mkexc ValueError k) else raise (mkexc AttributeError k)
                           | _ => raise (mkexc AttributeError k)
                           end;
    m_iter := fun x => match x with
                       | DList l => match names_of (unchain l) with Some ks => ret ks | None => type_error end
                       | _ => match dict_of x with Some d => ret (keys d) | None => type_error end
                       end;
    m_item := fun x k => match dict_of x with
                         | Some d => match dget k d with Some v => ret v | None => raise (mkexc KeyError k) end
                         | None => type_error
                         end;
    unpack := fun x => match dict_of x with Some d => ret d | None => type_error end;
    as_dict := fun x => match to_dict_of_pairs x with Some d => ret d | None => type_error end;
    json_loads := fun x => match x with DTuple (DCons y DNil) => ret y | _ => raise (mkexc ValueError "not JSON") end;
    json_dumps := fun d => ret (DTuple (DCons (mapping d) DNil));
    deep_copy := fun l => ret l;
    pickle_values := fun l => ret l;
    set_order := fun _ l => l;
    int_of := fun x => match x with DInt z => Some z | _ => None end;
    v_repr := fun x => ret (match x with DInt _ => "1" | _ => "?" end);
    type_name := fun _ => "C"
  |}; try reflexivity.
  - intros [? ? ?]; reflexivity.
  - intros t n H; discriminate.
  - intro x. cbn. unfold dsub, dtyb. destruct (dty_eq (dtype x) (dtype x)); [reflexivity|congruence].
  - intros x w d w'. destruct (dict_of x) eqn:E; cbn; intro H; [|discriminate]. injection H as <- <-. eapply dict_of_ok; eassumption.
  - intros x w d w'. destruct (to_dict_of_pairs x) eqn:E; cbn; intro H; [|discriminate]. injection H as <- <-. eapply to_dict_of_pairs_ok; eassumption.
Defined.
