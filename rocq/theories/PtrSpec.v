(** * PtrSpec: who owns what. *)
From Verif Require Import Base PtrModel.
From Coq Require Import ZArith.

(** Variable [i] of a list, and the list with [x] in its place. *)
Definition var {A} (l : list (option A)) (i : nat) : option A := nth i l None.
Definition put {A} (l : list A) (i : nat) (x : A) : list A := firstn i l ++ x :: skipn (S i) l.

Definition is_live {A} (l : list (option A)) (i : nat) : Prop := i < length l /\ var l i <> None.
Definition is_vacant {A} (l : list (option A)) (i : nat) : Prop := i < length l /\ var l i = None.

(** ** shared_ptr: the variables that share an object form a group; a group
    starts when a raw pointer is handed over. *)
Definition group : Type := nat * option obj.
Definition group_dec : forall x y : group, {x = y} + {x <> y}.
Proof. repeat decide equality. Defined.
Record sspec := SS { sp_next : nat; sp_vars : list (option (option group)) }.

Definition holds (g : nat) (v : option (option group)) : bool :=
  match v with Some (Some (g', _)) => Nat.eqb g' g | _ => false end.
(** The number of owners of a group. *)
Definition owners (vs : list (option (option group))) (g : nat) : nat := length (filter (holds g) vs).
(** The groups with an owner. *)
Definition groups (vs : list (option (option group))) : list group :=
  nodup group_dec (flat_map (fun v => match v with Some (Some g) => [g] | _ => [] end) vs).
(** The objects owned, each counted once per group. *)
Definition owned (vs : list (option (option group))) : list obj := flat_map (fun g => del (snd g)) (groups vs).
(** The objects of the groups that have an owner in [vs] and none in [vs']. *)
Definition lost (vs vs' : list (option (option group))) : list obj :=
  flat_map (fun g => del (snd g)) (filter (fun g => Nat.eqb (owners vs' (fst g)) 0) (groups vs)).

Definition sp_after (s : sspec) (o : shop) : sspec :=
  let vs := sp_vars s in
  match o with
  | ShDef i => SS (sp_next s) (put vs i (Some None))
  | ShOf i p => SS (S (sp_next s)) (put vs i (Some (Some (sp_next s, p))))
  | ShCopy i j => SS (sp_next s) (put vs i (var vs j))
  | ShMove i j => SS (sp_next s) (put (put vs i (var vs j)) j (Some None))
  | ShReset i (Some p) => SS (S (sp_next s)) (put vs i (Some (Some (sp_next s, Some p))))
  | ShReset i None => SS (sp_next s) (put vs i (Some None))
  | ShAssignMove i j | ShSwap i j => SS (sp_next s) (put (put vs i (var vs j)) j (var vs i))
  | ShDestroy i => SS (sp_next s) (put vs i None)
  | ShCount _ | ShGet _ => s
  end.
Definition sp_value (s : sspec) (o : shop) : pval :=
  match o with
  | ShCount i => match var (sp_vars s) i with Some (Some (g, _)) => PNum (Z.of_nat (owners (sp_vars s) g)) | _ => PNum 0 end
  | ShGet i => match var (sp_vars s) i with Some (Some (_, p)) => PPtr p | _ => PPtr None end
  | _ => PNone
  end.
(** Each operation deletes exactly the objects that lose their last owner. *)
Definition sp_step (s : sspec) (o : shop) : sspec * pres :=
  let s' := sp_after s o in (s', (lost (sp_vars s) (sp_vars s'), sp_value s o)).
(** What the caller must observe: construct only variables that are not, use
    only variables that are constructed, do not reset a pointer to the object
    it already holds. *)
Definition sp_pre (s : sspec) (o : shop) : Prop :=
  let vs := sp_vars s in
  match o with
  | ShDef i | ShOf i _ => is_vacant vs i
  | ShCopy i j | ShMove i j => is_vacant vs i /\ is_live vs j
  | ShReset i p => is_live vs i /\ match p, var vs i with Some a, Some (Some (_, Some b)) => a <> b | _, _ => True end
  | ShAssignMove i j | ShSwap i j => is_live vs i /\ is_live vs j
  | ShDestroy i | ShCount i | ShGet i => is_live vs i
  end.
Fixpoint sp_pres (s : sspec) (ops : list shop) : Prop :=
  match ops with [] => True | o :: t => sp_pre s o /\ sp_pres (sp_after s o) t end.
(** The objects handed over. *)
Definition sh_given (o : shop) : list obj := match o with ShOf _ p | ShReset _ p => del p | _ => [] end.

(** ** unique ownership *)
Definition uspec := list (option (option obj)).
Definition us_step (vs : uspec) (o : uop) : uspec * pres :=
  let held i := match var vs i with Some p => p | None => None end in
  match o with
  | UOf i p => (put vs i (Some p), ([], PNone))
  | UMove i j => (put (put vs j (Some None)) i (Some (held j)), ([], PNone))
  | UReset i p => (put vs i (Some p), (del (held i), PNone))
  | UAssign i j => if Nat.eqb i j then (vs, ([], PNone))
                   else (put (put vs j (Some None)) i (Some (held j)), (del (held i), PNone))
  | URelease i => (put vs i (Some None), ([], PPtr (held i)))
  | USwap i j => (put (put vs i (Some (held j))) j (Some (held i)), ([], PNone))
  | UDestroy i => (put vs i None, (del (held i), PNone))
  | UGet i => (vs, ([], PPtr (held i)))
  end.
Definition us_pre (vs : uspec) (o : uop) : Prop :=
  match o with
  | UOf i _ => is_vacant vs i
  | UMove i j => is_vacant vs i /\ is_live vs j
  | UReset i p => is_live vs i /\ match p, var vs i with Some a, Some (Some b) => a <> b | _, _ => True end
  | UAssign i j => is_live vs i /\ is_live vs j /\
      (i <> j -> match var vs i, var vs j with Some (Some a), Some (Some b) => a <> b | _, _ => True end)
  | USwap i j => is_live vs i /\ is_live vs j
  | URelease i | UDestroy i | UGet i => is_live vs i
  end.
Fixpoint us_pres (vs : uspec) (ops : list uop) : Prop :=
  match ops with [] => True | o :: t => us_pre vs o /\ us_pres (fst (us_step vs o)) t end.
Definition u_given (o : uop) : list obj := match o with UOf _ p | UReset _ p => del p | _ => [] end.
Definition u_released (o : uop) (r : pres) : list obj :=
  match o, snd r with URelease _, PPtr p => del p | _, _ => [] end.
Definition u_held (vs : uspec) : list obj := flat_map (fun v => match v with Some p => del p | None => [] end) vs.

(** unique_resource: a deleter, and the resource it is responsible for. *)
Definition rspec := list (option (nat * option nat)).
Definition rd_del (v : option (nat * option nat)) : nat := match v with Some (d, _) => d | None => 0 end.
Definition rd_res (v : option (nat * option nat)) : option nat := match v with Some (_, r) => r | None => None end.
Definition disposed (v : option (nat * option nat)) : list (nat * nat) :=
  match v with Some (d, Some r) => [(d, r)] | _ => [] end.
Definition rs_step (vs : rspec) (o : rop) : rspec * list (nat * nat) :=
  match o with
  | ROf i r d on => (put vs i (Some (d, if on then Some r else None)), [])
  | RMove i j => (put (put vs i (var vs j)) j (Some (rd_del (var vs j), None)), [])
  | RReset i => (put vs i (Some (rd_del (var vs i), None)), disposed (var vs i))
  | RResetTo i r => (put vs i (Some (rd_del (var vs i), Some r)), disposed (var vs i))
  | RAssign i j =>
      if Nat.eqb i j then (put vs i (Some (rd_del (var vs i), None)), disposed (var vs i))
      else (put (put vs i (var vs j)) j (Some (rd_del (var vs j), None)), disposed (var vs i))
  | RRelease i => (put vs i (Some (rd_del (var vs i), None)), [])
  | RDestroy i => (put vs i None, disposed (var vs i))
  end.
Definition rs_pre (vs : rspec) (o : rop) : Prop :=
  match o with
  | ROf i _ _ _ => is_vacant vs i
  | RMove i j => is_vacant vs i /\ is_live vs j
  | RAssign i j => is_live vs i /\ is_live vs j
  | RReset i | RResetTo i _ | RRelease i | RDestroy i => is_live vs i
  end.
Fixpoint rs_pres (vs : rspec) (ops : list rop) : Prop :=
  match ops with [] => True | o :: t => rs_pre vs o /\ rs_pres (fst (rs_step vs o)) t end.
Definition r_given (o : rop) : list nat :=
  match o with ROf _ r _ true => [r] | RResetTo _ r => [r] | _ => [] end.
Definition r_held (vs : rspec) : list nat := flat_map (fun v => del (rd_res v)) vs.
(** The resources given up by release(). *)
Fixpoint r_released (vs : rspec) (ops : list rop) : list nat :=
  match ops with
  | [] => []
  | o :: t => (match o with RRelease i => del (rd_res (var vs i)) | _ => [] end) ++ r_released (fst (rs_step vs o)) t
  end.

(** ** Threads *)
Definition total (ths : list thread) : nat := fold_right (fun t n => t_own t + n) 0 ths.
Definition idle (th : thread) : Prop := t_pc th = Idle.
(** No thread starts to give up a pointer while another is between its
    decrement and its test. *)
Fixpoint serial (s : cst) (sched : list (nat * act)) : Prop :=
  match sched with
  | [] => True
  | (t, a) :: rest =>
      (a = Dec -> Forall (fun th => t_pc th <> Loading) (k_thr s)) /\
      match c_step s t a with Ok s' => serial s' rest | _ => True end
  end.
(** Threads that start with [owns] pointers each to the one object. *)
Definition started (owns : list nat) : cst :=
  Cs (Z.of_nat (total (map (fun n => Th n Idle) owns))) true 0 (map (fun n => Th n Idle) owns).
