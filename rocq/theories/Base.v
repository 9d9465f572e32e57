(** * Base: outcomes of C++ code and flat arrays.

    Nothing in this file models a particular function of /repo; it fixes the
    vocabulary the model files use.

    - [outcome] : what running a piece of C++ can lead to.  [Ok] is a normal
      return; [UB] is undefined behaviour (reading or writing outside the
      storage the model gives the code, shifting by the word width, ...);
      [Exn] is a C++ exception leaving the function; [NoFuel] means the fuel
      given to a modelled loop ran out (theorems exclude it by proving [Ok]).
    - [rd]/[wr] : dereferencing a pointer for reading / writing, with the
      pointer given as an index into the storage; out of range is [UB]. *)

From Coq Require Export List Arith Bool Lia.
Export ListNotations.

Inductive exn : Type :=
| bad_alloc            (* ustl::bad_alloc / std::bad_alloc *)
| length_error         (* ustl::length_error *)
| out_of_range         (* ustl::out_of_range *)
| stream_bounds        (* ustl::stream_bounds_exception *)
| ios_failure          (* ustl::ios_base::failure *)
| file_exception.      (* ustl::file_exception *)

Inductive outcome (A : Type) : Type :=
| Ok (a : A)
| UB
| Exn (e : exn)
| NoFuel.
Arguments Ok {A} a.
Arguments UB {A}.
Arguments Exn {A} e.
Arguments NoFuel {A}.

Definition bind {A B} (m : outcome A) (k : A -> outcome B) : outcome B :=
  match m with
  | Ok a => k a
  | UB => UB
  | Exn e => Exn e
  | NoFuel => NoFuel
  end.

Notation "x <- m ;; k" := (bind m (fun x => k))
  (at level 61, m at next level, right associativity).
Notation "' p <- m ;; k" := (bind m (fun x => match x with p => k end))
  (at level 61, p pattern, m at next level, right associativity).

(** Reading [*p] where [p] points to index [i] of the storage [a]. *)
Definition rd {A} (a : list A) (i : nat) : outcome A :=
  match nth_error a i with
  | Some x => Ok x
  | None => UB
  end.

(** Replace element [i]; [None] if there is no such element. *)
Fixpoint upd {A} (a : list A) (i : nat) (v : A) : option (list A) :=
  match a, i with
  | [], _ => None
  | _ :: t, O => Some (v :: t)
  | h :: t, S j => match upd t j v with
                   | Some t' => Some (h :: t')
                   | None => None
                   end
  end.

(** Writing [*p = v] where [p] points to index [i] of the storage [a]. *)
Definition wr {A} (a : list A) (i : nat) (v : A) : outcome (list A) :=
  match upd a i v with
  | Some a' => Ok a'
  | None => UB
  end.

(** [lo, hi) part of an array. *)
Definition slice {A} (a : list A) (lo hi : nat) : list A :=
  firstn (hi - lo) (skipn lo a).

(** ** Facts *)

Lemma bind_Ok {A B} (a : A) (k : A -> outcome B) : bind (Ok a) k = k a.
Proof. reflexivity. Qed.

Lemma rd_app {A} (pre post : list A) (x : A) :
  rd (pre ++ x :: post) (length pre) = Ok x.
Proof.
  unfold rd. rewrite nth_error_app2 by lia. now rewrite Nat.sub_diag.
Qed.

Lemma rd_app' {A} (pre post : list A) (x : A) i :
  i = length pre -> rd (pre ++ x :: post) i = Ok x.
Proof. intros ->. apply rd_app. Qed.

Lemma rd_cons_0 {A} (x : A) (l : list A) : rd (x :: l) 0 = Ok x.
Proof. reflexivity. Qed.

Lemma upd_app {A} (pre post : list A) (x v : A) :
  upd (pre ++ x :: post) (length pre) v = Some (pre ++ v :: post).
Proof.
  induction pre as [|h t IH]; simpl; [reflexivity|]. now rewrite IH.
Qed.

Lemma wr_app {A} (pre post : list A) (x v : A) :
  wr (pre ++ x :: post) (length pre) v = Ok (pre ++ v :: post).
Proof. unfold wr. now rewrite upd_app. Qed.

Lemma wr_app' {A} (pre post : list A) (x v : A) i :
  i = length pre -> wr (pre ++ x :: post) i v = Ok (pre ++ v :: post).
Proof. intros ->. apply wr_app. Qed.

Lemma rd_Ok_lt {A} (a : list A) i x : rd a i = Ok x -> i < length a.
Proof.
  unfold rd. destruct (nth_error a i) eqn:E; [|discriminate].
  intros _. apply nth_error_Some. congruence.
Qed.

Lemma rd_lt {A} (a : list A) i : i < length a -> exists x, rd a i = Ok x /\ nth_error a i = Some x.
Proof.
  intros H. unfold rd. destruct (nth_error a i) eqn:E; [eauto|].
  apply nth_error_None in E. lia.
Qed.

Lemma rd_nth_error {A} (a : list A) i x : rd a i = Ok x <-> nth_error a i = Some x.
Proof.
  unfold rd. destruct (nth_error a i); split; intros H; congruence.
Qed.

Lemma rd_not_exn {A} (a : list A) i e : rd a i <> Exn e.
Proof. unfold rd. destruct (nth_error a i); discriminate. Qed.

Lemma upd_length {A} (a : list A) i v a' : upd a i v = Some a' -> length a' = length a.
Proof.
  revert i a'. induction a as [|h t IH]; intros [|i] a' H; simpl in H; try discriminate.
  - now inversion H.
  - destruct (upd t i v) eqn:E; [|discriminate]. inversion H; subst.
    simpl. f_equal. eauto.
Qed.

Lemma upd_lt {A} (a : list A) i v : i < length a -> exists a', upd a i v = Some a'.
Proof.
  revert i. induction a as [|h t IH]; intros [|i] H; simpl in *; try lia; eauto.
  destruct (IH i) as [a' E]; [lia|]. rewrite E. eauto.
Qed.

Lemma upd_nth_error {A} (a : list A) i v a' j :
  upd a i v = Some a' ->
  nth_error a' j = if Nat.eqb j i then Some v else nth_error a j.
Proof.
  revert i a' j. induction a as [|h t IH]; intros [|i] a' j H; simpl in H; try discriminate.
  - inversion H; subst. destruct j; reflexivity.
  - destruct (upd t i v) eqn:E; [|discriminate]. inversion H; subst.
    destruct j; simpl; [reflexivity|]. eapply IH; eauto.
Qed.

Lemma split_at {A} (a : list A) i x :
  nth_error a i = Some x ->
  exists pre post, a = pre ++ x :: post /\ length pre = i.
Proof. intros H. apply nth_error_split in H. firstorder. Qed.

Lemma skipn_skipn {A} (l : list A) x y : skipn x (skipn y l) = skipn (x + y) l.
Proof.
  revert l. induction y as [|y IH]; intros l; [now rewrite Nat.add_0_r|].
  destruct l as [|h t]; [now rewrite !skipn_nil|].
  rewrite <- plus_n_Sm. simpl. apply IH.
Qed.

Lemma slice_app {A} (pre l post : list A) :
  slice (pre ++ l ++ post) (length pre) (length pre + length l) = l.
Proof.
  unfold slice. rewrite skipn_app, skipn_all, Nat.sub_diag. simpl.
  replace (length pre + length l - length pre) with (length l) by lia.
  rewrite firstn_app, Nat.sub_diag, firstn_all. simpl. apply app_nil_r.
Qed.

(** Every array splits into the part before, inside and after [lo, hi). *)
Lemma slice_split {A} (a : list A) lo hi :
  lo <= hi -> hi <= length a ->
  exists pre l post, a = pre ++ l ++ post /\ length pre = lo /\ lo + length l = hi
                     /\ slice a lo hi = l.
Proof.
  intros H1 H2.
  exists (firstn lo a), (slice a lo hi), (skipn hi a).
  assert (L1 : length (firstn lo a) = lo) by (rewrite firstn_length; lia).
  assert (L2 : length (slice a lo hi) = hi - lo)
    by (unfold slice; rewrite firstn_length, skipn_length; lia).
  repeat split; try lia.
  unfold slice.
  rewrite <- (firstn_skipn lo a) at 1. f_equal.
  rewrite <- (firstn_skipn (hi - lo) (skipn lo a)) at 1. f_equal.
  rewrite skipn_skipn. f_equal. lia.
Qed.
