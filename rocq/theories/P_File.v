(** * P_File: fstream transfers (C49, C73). *)
From Verif Require Import Base StreamModel FileModel FileSpec FileProofs.
From Coq Require Import ZArith Lia.

(** ** C49.  Whatever the operating system answers, a write hands over a prefix
    of the data, in order, once; the count returned is the length of that
    prefix; and it falls short only after an answer that stopped it, which is
    either would-block or one recorded in the stream state. *)
Theorem C49_write : forall p f f' r,
  fwrite p f = Ok (f', r) ->
  exists c u,
    c <= length p /\ f_out f' = f_out f ++ firstn c p /\ f_in f' = f_in f /\ used (f_sched f) (f_sched f') u /\
    (forall n, r = Val n -> n = c) /\
    (c = length p -> r = Val c /\ f_state f' = f_state f) /\
    (c < length p -> exists v x, u = v ++ [x] /\ (x = SAgain \/ x = SErr \/ x = SOk 0) /\
                     f_state f' = Z.lor (f_state f) (stop_bits x)) /\
    (forall e, r = Thrown e -> f_exc f <> 0%Z).
Proof.
  intros p f f' r H. apply fwrite_loop_spec in H.
  destruct H as (c & u & H1 & H2 & H3 & H4 & H5 & H6). exists c, u.
  split; [assumption|]. split; [assumption|]. split; [assumption|]. split; [exact H5|].
  destruct H6 as [(-> & -> & Hs & _)|(Hlt & v & x & -> & _ & Hx & Hs & Hr)].
  - split; [intros n [= <-]; reflexivity|]. split; [auto|]. split; [lia|]. discriminate.
  - split. { intros n ->. destruct (_ =? 0)%Z; [injection Hr as ->; reflexivity|destruct Hr; discriminate]. }
    split; [lia|]. split.
    + intros _. exists v, x. split; [reflexivity|]. split; [|assumption].
      destruct x as [[|k]| | |]; cbn in Hx; auto; exfalso; apply Hx; auto; lia.
    + intros e -> E. rewrite E in Hr. cbn in Hr. discriminate.
Qed.
Print Assumptions C49_write.

(** If the answers offer room for all of it and none of them stops the
    transfer, everything is written, whatever the sizes of the pieces. *)
Theorem C49_write_completes : forall p f u t,
  f_sched f = u ++ t -> Forall progress u -> length p <= offered u ->
  exists f', fwrite p f = Ok (f', Val (length p)) /\ f_out f' = f_out f ++ p /\ f_state f' = f_state f.
Proof.
  intros p f u t Hs HF Ho. unfold fwrite.
  destruct (fwrite_loop_complete u (S (length (f_sched f))) p 0 f t Hs HF Ho) as [f' H].
  { rewrite Hs, app_length. lia. }
  exists f'. split; [exact H|].
  destruct (C49_write p f f' _ H) as (c & v & H1 & H2 & _ & _ & H4 & H5 & _).
  pose proof (H4 _ eq_refl) as E. cbn in E. subst c. rewrite firstn_all in H2.
  split; [exact H2|]. apply H5. reflexivity.
Qed.
Print Assumptions C49_write_completes.

(** A read moves the next bytes of the file into the buffer, in order, once,
    touching nothing else; if it returns, the count is their number. *)
Theorem C49_read : forall n f buf f' buf' r,
  n <= length buf -> fread n (f, buf) = Ok ((f', buf'), r) ->
  exists d,
    f_in f = d ++ f_in f' /\ length d <= n /\ buf' = d ++ skipn (length d) buf /\ f_out f' = f_out f /\
    (forall c, r = Val c -> c = length d) /\
    (length d < n -> f_state f' <> 0%Z) /\
    (forall e, r = Thrown e -> f_exc f <> 0%Z).
Proof.
  intros n f buf f' buf' r Hn H. unfold fread in H.
  rewrite <- (firstn_skipn n buf) in H. change (firstn n buf ++ skipn n buf) with ([] ++ firstn n buf ++ skipn n buf) in H.
  apply fread_loop_spec in H; [|reflexivity|rewrite firstn_length; cbn; lia].
  destruct H as (d & rest & v & H1 & H2 & H3 & H4 & H5 & H6 & H7 & H8 & H9 & H10).
  rewrite firstn_length in H2. exists d. split; [assumption|]. split; [lia|].
  split. { rewrite H3. cbn [app]. rewrite <- app_assoc. f_equal. rewrite H4.
    rewrite <- (firstn_skipn n buf) at 3. rewrite skipn_app, firstn_length.
    replace (length d - min n (length buf)) with 0 by lia. reflexivity. }
  split; [assumption|]. split; [intros c ->; exact H10|]. split.
  - intro Hlt. apply H8. intro E. rewrite E in H2. cbn in H2. lia.
  - intros e ->. destruct H10 as (_ & _ & H10). exact H10.
Qed.
Print Assumptions C49_read.

(** Enough data and enough answers, in pieces of any size, with any number of
    interruptions and would-block answers in between: the read is complete. *)
Theorem C49_read_completes : forall n f buf u t,
  n <= length buf -> f_state f = 0%Z -> f_sched f = u ++ t -> Forall no_error u ->
  n <= length (f_in f) -> n <= offered_read u ->
  exists f', fread n (f, buf) = Ok ((f', firstn n (f_in f) ++ skipn n buf), Val n) /\
             f_in f' = skipn n (f_in f) /\ f_state f' = 0%Z.
Proof.
  intros n f buf u t Hn Hst Hs HF Hin Hof.
  assert (Hm : length (firstn n buf) = n) by (rewrite firstn_length; lia).
  destruct (fread_loop_complete (S (length (f_sched f))) u n 0 f [] (firstn n buf) (skipn n buf) t) as (f' & buf' & E & Es);
    try assumption; try lia; [reflexivity|rewrite Hs, app_length; lia|].
  cbn [app] in E. rewrite firstn_skipn in E. fold (fread n (f, buf)) in E.
  assert (E' : fread n (f, buf) = Ok ((f', buf'), Val n)) by exact E.
  destruct (C49_read _ _ _ _ _ _ Hn E') as (d & H1 & H2 & H3 & _ & H4 & _).
  pose proof (H4 _ eq_refl) as Hd. symmetry in Hd.
  exists f'. split.
  - rewrite E', H3, H1, firstn_app, Hd, Nat.sub_diag, firstn_all2 by lia. cbn [firstn]. rewrite app_nil_r. reflexivity.
  - split; [|exact Es]. rewrite H1, skipn_app, Hd, Nat.sub_diag, skipn_all2 by lia. reflexivity.
Qed.
Print Assumptions C49_read_completes.

(** Interrupting signals are invisible. *)
Theorem C49_interruptions_invisible :
  (forall p f f' r, fwrite p f = Ok (f', r) -> fwrite p (uninterrupted f) = Ok (uninterrupted f', r)) /\
  (forall n f buf f' buf' r, fread n (f, buf) = Ok ((f', buf'), r) ->
     fread n (uninterrupted f, buf) = Ok ((uninterrupted f', buf'), r)) /\
  (forall n f f' r, freadsome n f = Ok (f', r) -> freadsome n (uninterrupted f) = Ok (uninterrupted f', r)).
Proof.
  split; [|split].
  - intros. eapply fwrite_loop_un; [eassumption|]. lia.
  - intros. eapply fread_loop_un; [eassumption|]. cbn [fst]. lia.
  - exact freadsome_un.
Qed.
Print Assumptions C49_interruptions_invisible.

(** Non-vacuity: a write in pieces with an interruption; a read into a larger
    buffer; a write stopped by would-block. *)
Example C49_example_write : exists f',
  fwrite [1; 2; 3; 4]%Z (mkf 0 0 [9%Z] [] [SOk 1; SIntr; SOk 2; SOk 7; SErr]) = Ok (f', Val 4) /\
  f_out f' = [9; 1; 2; 3; 4]%Z /\ f_sched f' = [SErr].
Proof. eexists. split; [reflexivity|]. split; reflexivity. Qed.
Example C49_example_completes : exists f',
  fwrite [1; 2; 3; 4]%Z (mkf 0 0 [9%Z] [] [SOk 1; SIntr; SOk 2; SOk 7; SErr]) = Ok (f', Val 4) /\
  f_out f' = [9; 1; 2; 3; 4]%Z /\ f_state f' = 0%Z.
Proof.
  apply (C49_write_completes [1; 2; 3; 4]%Z (mkf 0 0 [9%Z] [] [SOk 1; SIntr; SOk 2; SOk 7; SErr]) [SOk 1; SIntr; SOk 2; SOk 7] [SErr]); [reflexivity| |cbn; lia].
  repeat constructor; cbn; lia.
Qed.
Example C49_example_read : exists f',
  fread 4 (mkf 0 0 [] [1; 2; 3; 4; 5]%Z [SAgain; SOk 1; SIntr; SOk 0; SAgain; SOk 3], [0; 0; 0; 0; 8; 8]%Z)
  = Ok ((f', [1; 2; 3; 4; 8; 8]%Z), Val 4) /\ f_in f' = [5%Z] /\ f_state f' = 0%Z.
Proof.
  apply (C49_read_completes 4 (mkf 0 0 [] [1; 2; 3; 4; 5]%Z [SAgain; SOk 1; SIntr; SOk 0; SAgain; SOk 3]) [0; 0; 0; 0; 8; 8]%Z [SAgain; SOk 1; SIntr; SOk 0; SAgain; SOk 3] []); try reflexivity; try (cbn; lia).
  repeat constructor; discriminate.
Qed.
Example C49_example_short : exists f',
  fwrite [1; 2; 3]%Z (mkf 0 0 [] [] [SOk 2; SAgain]) = Ok (f', Val 2) /\ f_state f' = 0%Z.
Proof. eexists. split; reflexivity. Qed.

(** ** C73.  End of file is reported only at the end of the file. *)
Theorem C73_read : forall n f buf f' buf' r,
  n <= length buf -> f_state f = 0%Z -> fread n (f, buf) = Ok ((f', buf'), r) ->
  f_state f' = 0%Z \/
  (f_state f' = failbit /\ In SErr (f_sched f)) \/
  (f_state f' = Z.lor eofbit failbit /\ f_in f' = [] /\ length (f_in f) < n).
Proof.
  intros n f buf f' buf' r Hn Hst H. unfold fread in H.
  rewrite <- (firstn_skipn n buf) in H. change (firstn n buf ++ skipn n buf) with ([] ++ firstn n buf ++ skipn n buf) in H.
  apply fread_loop_spec in H; [|reflexivity|rewrite firstn_length; cbn; lia].
  destruct H as (d & rest & v & H1 & H2 & H3 & H4 & H5 & H6 & H7 & H8 & H9 & H10).
  destruct (Z.eq_dec (f_state f') 0) as [E|E]; [left; exact E|right].
  destruct (H9 Hst E) as [[A B]|(A & B & C)].
  - left. split; [exact B|]. rewrite H7. apply in_or_app. left; exact A.
  - right. split; [exact B|]. split; [exact A|]. rewrite H1, A, app_nil_r. rewrite firstn_length in H2.
    destruct rest; [congruence|]. cbn in H2. lia.
Qed.
Print Assumptions C73_read.

Theorem C73_readsome_partial : forall n f f' r,
  0 < n -> f_state f = 0%Z -> freadsome n f = Ok (f', r) ->
  f_state f' = 0%Z \/ f_state f' = failbit \/
  (f_state f' = Z.lor eofbit failbit /\ f_in f = []).
Proof.
  intros n f f' r Hn Hst H. apply freadsome_spec in H.
  destruct H as (d & v & x & H1 & H2 & H3 & H4 & H5 & H6 & H7). rewrite Hst in H7.
  destruct x as [k| | |]; [|contradiction| |].
  - destruct H7 as (A & B & C). destruct d as [|b d].
    + right; right. destruct (B eq_refl) as [B1 _]. split; [exact B1|].
      destruct (f_in f); [reflexivity|]. cbn [length] in A. lia.
    + left. destruct C as [C _]; [discriminate|]. exact C.
  - left. apply H7.
  - right; left. apply H7.
Qed.
Print Assumptions C73_readsome_partial.

(** Asking for no bytes reports the end of the file in the middle of it. *)
Theorem C73_readsome_zero_refuted : exists f f',
  f_state f = 0%Z /\ f_in f <> [] /\ freadsome 0 f = Ok (f', Val []) /\ f_state f' = Z.lor eofbit failbit.
Proof.
  exists (mkf 0 0 [] [1%Z] [SOk 5]). eexists. split; [reflexivity|]. split; [discriminate|]. split; reflexivity.
Qed.
Print Assumptions C73_readsome_zero_refuted.
Example C73_example : exists f', fread 3 (mkf 0 0 [] [1; 2]%Z [SOk 5; SOk 5], [0; 0; 0]%Z)
  = Ok ((f', [1; 2; 0]%Z), Val 2) /\ f_state f' = Z.lor eofbit failbit.
Proof. eexists. split; reflexivity. Qed.
