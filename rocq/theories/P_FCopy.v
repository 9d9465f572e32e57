(** * Property C242: copies of an fstream. *)
From Verif Require Import Base FdModel FCopyModel.
From Coq Require Import List ZArith Lia.
Import ListNotations.

Lemma put_get tab fd x i : fd < length tab -> nth i (put_fd tab fd x) None = if i =? fd then x else nth i tab None.
Proof.
  intros H. unfold put_fd. destruct (Nat.eqb_spec i fd) as [->|N].
  - rewrite app_nth2; rewrite firstn_length_le by lia; [|lia]. now rewrite Nat.sub_diag.
  - destruct (Nat.lt_ge_cases i fd) as [L|L].
    + rewrite app_nth1 by (rewrite firstn_length_le; lia). rewrite <- (firstn_skipn fd tab) at 2. rewrite app_nth1; [reflexivity|rewrite firstn_length_le; lia].
    + rewrite app_nth2 by (rewrite firstn_length_le; lia). rewrite firstn_length_le by lia.
      replace (i - fd) with (S (i - fd - 1)) by lia. cbn [nth]. rewrite <- (firstn_skipn (S fd) tab) at 2.
      rewrite app_nth2 by (rewrite firstn_length_le; lia). rewrite firstn_length_le by lia. f_equal. lia.
Qed.
Lemma lowest_is (tab : list (option nat)) fd : fd < length tab -> (forall i, i < fd -> nth i tab None <> None) -> nth fd tab None = None -> lowest tab = fd.
Proof.
  revert fd. induction tab as [|[x|] tab IH]; intros [|fd] L A N; cbn [length nth] in *; try lia; cbn [lowest].
  - discriminate N.
  - f_equal. apply IH; [lia| |exact N]. intros i Hi. exact (A (S i) ltac:(lia)).
  - reflexivity.
  - exfalso. exact (A 0 ltac:(lia) eq_refl).
Qed.
Lemma nth_in (tab : list (option nat)) fd id : nth fd tab None = Some id -> fd < length tab.
Proof. intros E. destruct (Nat.lt_ge_cases fd (length tab)) as [L|L]; [exact L|]. rewrite nth_overflow in E by lia. discriminate E. Qed.

(** A destroyed copy has closed the file of the original, though that still
    says that it is open. *)
Theorem C242_closes_refuted keeps asserts k f fd id t :
  fs_fd f = Some fd -> nth fd (k_tab k) None = Some id -> k_closes k = COk :: t ->
  exists k' g, copy_and_destroy keeps asserts k f = Ok (k', g, false) /\ nth fd (k_tab k') None = None /\ In id (k_closed k').
Proof.
  intros F N C. pose proof (nth_in _ _ _ N) as L. unfold copy_and_destroy, fs_destroy, fs_close, fs_copy. cbn [fs_fd fs_name]. rewrite F. cbn [close_loop].
  unfold sys_close. rewrite C, N. cbn [bind]. unfold fs_detach. cbn [fs_state]. change (negb (Z.land 0 badbit =? 0)%Z) with false. rewrite Bool.andb_false_r.
  eexists _, _. split; [reflexivity|]. cbn [k_tab k_closed]. split; [|now left]. rewrite put_get by exact L. now rewrite Nat.eqb_refl.
Qed.
Print Assumptions C242_closes_refuted.
(** The destructor of the original then fails its assertion, whatever close(2)
    answers. *)
Theorem C242_second_refuted keeps asserts k f fd id a t k' g :
  fs_fd f = Some fd -> nth fd (k_tab k) None = Some id -> k_closes k = COk :: a :: t ->
  copy_and_destroy keeps asserts k f = Ok (k', g, false) -> fs_destroy keeps true k' f = UB.
Proof.
  intros F N C E. pose proof (nth_in _ _ _ N) as L. unfold copy_and_destroy, fs_destroy, fs_close, fs_copy in E. cbn [fs_fd fs_name] in E. rewrite F in E. cbn [close_loop] in E.
  unfold sys_close in E. rewrite C, N in E. cbn [bind] in E. destruct (_ && _)%bool; [discriminate E|]. injection E as <- _.
  unfold fs_destroy, fs_close. cbn [fs_fd]. rewrite F. cbn [close_loop]. unfold sys_close. cbn [k_closes k_tab].
  rewrite put_get by exact L. rewrite Nat.eqb_refl. reflexivity.
Qed.
Print Assumptions C242_second_refuted.
(** Or, if someone opened another file meanwhile, the destructor of the original
    closes that one. *)
Theorem C242_other_refuted keeps asserts k f fd id t k' g :
  fs_fd f = Some fd -> nth fd (k_tab k) None = Some id -> (forall i, i < fd -> nth i (k_tab k) None <> None) -> k_closes k = COk :: COk :: t ->
  copy_and_destroy keeps asserts k f = Ok (k', g, false) ->
  exists k'', fs_destroy keeps true (other_opens k') f = Ok (k'', fs_new, false) /\
    nth fd (k_tab (other_opens k')) None = Some (k_next k) /\ nth fd (k_tab k'') None = None /\ In (k_next k) (k_closed k'').
Proof.
  intros F N A C E. pose proof (nth_in _ _ _ N) as L. unfold copy_and_destroy, fs_destroy, fs_close, fs_copy in E. cbn [fs_fd fs_name] in E. rewrite F in E. cbn [close_loop] in E.
  unfold sys_close in E. rewrite C, N in E. cbn [bind] in E. destruct (_ && _)%bool; [discriminate E|]. injection E as <- _.
  assert (Len : length (put_fd (k_tab k) fd None) = length (k_tab k)).
  { unfold put_fd. rewrite app_length. cbn [length]. rewrite firstn_length_le, skipn_length by lia. lia. }
  assert (Lo : lowest (put_fd (k_tab k) fd None) = fd).
  { apply lowest_is; [lia| |rewrite put_get by exact L; now rewrite Nat.eqb_refl].
    intros i Hi. rewrite put_get by exact L. rewrite (proj2 (Nat.eqb_neq i fd)) by lia. now apply A. }
  unfold other_opens. cbn [k_tab k_next k_closes k_mine k_closed k_given k_opens]. rewrite Lo.
  unfold fs_destroy, fs_close. cbn [fs_fd]. rewrite F. cbn [close_loop k_closes]. unfold sys_close. cbn [k_closes k_tab].
  rewrite put_get by lia. rewrite Nat.eqb_refl. cbn [bind fs_detach fs_state]. change (true && negb (Z.land 0 badbit =? 0)%Z)%bool with false. cbn iota.
  eexists. split; [reflexivity|]. split; [reflexivity|]. cbn [k_tab k_closed]. split; [|now left].
  rewrite put_get; [now rewrite Nat.eqb_refl|]. unfold put_fd at 1. rewrite app_length. cbn [length]. rewrite firstn_length_le, skipn_length by lia. lia.
Qed.
Print Assumptions C242_other_refuted.
(** Not vacuous. *)
Example C242_example : let k := mkk [Some 0; Some 1; Some 2; Some 3] 4 [3] [] [] [] [COk; COk] in
  copy_and_destroy false true k (mkfs (Some 3) [102%Z] 0 0) = Ok (mkk [Some 0; Some 1; Some 2; None] 4 [3] [3] [] [] [COk], fs_new, false).
Proof. reflexivity. Qed.
