(** * P_Disk: write_file and read_file (C98, C99). *)
From Verif Require Import Base UtilModel StreamModel StoreModel VectorSpec VectorFacts MemModel MemSpec MemProofs MemRun MemFacts
  FileModel FileSpec DiskModel DiskSpec DiskProofs.
From Coq Require Import ZArith.
Local Open Scope nat_scope.

(** Any history of memory block operations mixed with write_file and read_file,
    over any number of blocks and files, whatever pieces the transfers come in:
    blocks and files hold what they should, the storage is right, the caller's
    memory is as before. *)
Theorem C98_round_trip (e : env) (h0 : heap) (k : nat) (files : list (option (list (option Z)))) (ops : list dop) :
  good_env e -> enough_memory e -> callers h0 -> dops_pre h0 (repeat [] k, files) ops ->
  exists h ms fs, drun e (h0, repeat mb_nil k, files) ops = Ok (h, ms, fs) /\
    let (ss, gs) := dspec_run h0 (repeat [] k, files) ops in
    Forall2 (mresult h) ms ss /\ Forall2 file_agrees gs fs /\ firstn (length h0) h = h0.
Proof.
  intros He Hm Hc P.
  destruct (drun_ok e He Hm h0 Hc ops (h0, repeat mb_nil k, files) (repeat [] k, files)) as ([[h ms] fs] & E & I); [|exact P|].
  { split; [apply sinv_init|]. cbn [snd]. clear. induction files as [|[x|] t IH]; constructor; cbn; auto using agrees_refl. }
  exists h, ms, fs. split; [exact E|]. destruct (dspec_run h0 (repeat [] k, files) ops) as [ss gs]. destruct I as [I F]. cbn [fst snd] in *.
  split; [eapply sinv_result; eassumption|]. split; [exact F|]. eapply sinv_foreign; eassumption.
Qed.
Print Assumptions C98_round_trip.

(** For every sequence of answers and every crash point: the file is as before,
    or holds a prefix of the data; as before only if it was not opened.  When
    write_file returns, and no write was answered EAGAIN, it holds the data. *)
Theorem C98_write_crash {A} (old : option (list A)) l s new r : write_file old l s = (new, r) ->
  ((new = old /\ (s = [] \/ exists a t, s = a :: t /\ In a [SIntr; SAgain; SErr])) \/ exists c, new = Some (firstn c l)) /\
  (r = Done -> ~ In SAgain s -> new = Some l).
Proof.
  unfold write_file. destruct s as [|a s]; [intro E; injection E as <- <-; split; [auto|discriminate]|].
  destruct (sys_opens a) eqn:Ea.
  - destruct (d_write s [] l) as [[d r'] t] eqn:E. apply d_write_all in E. destruct E as (c & L & -> & D). cbn [app].
    intro E. injection E as <- <-. split; [right; eauto|]. intros Hr N.
    destruct r' as [|x|]; [|unfold d_unwind in Hr; destruct (fst (d_close t)); discriminate|discriminate].
    destruct (D eq_refl) as [->|X]; [now rewrite firstn_all|]. exfalso. apply N. now right.
  - intro E. injection E as <- <-. split; [left; split; [reflexivity|right; exists a, s; split; [reflexivity|destruct a; [discriminate Ea|cbn; auto ..]]]|discriminate].
Qed.
Print Assumptions C98_write_crash.

(** For every sequence of answers: read_file stays inside the block's storage
    and touches no other memory; when it returns, the block holds the bytes of
    the file; when it throws, a block that was not linked to more bytes than
    the file has keeps its size and remains readable. *)
Theorem C98_read_all (e : env) (h : heap) (m : mb) l fsize fin s : good_env e -> enough_memory e ->
  Minv e h m l -> (Z.of_nat fsize <= 2 ^ 31)%Z ->
  exists h' m' r, read_file e 0 h m fsize fin s = Ok (h', m', r) /\
    (forall b, b < length h -> owner m <> Some b -> nth_error h' b = nth_error h b) /\
    (r = Done -> mresult h' m' (firstn fsize fin) /\ fsize <= length fin) /\
    (r <> Done -> msize m' = msize m /\ ((0 < mcap m)%Z \/ length l <= fsize -> exists x, mb_bytes h' m' = Ok x)).
Proof.
  intros He Hm I B. destruct (read_file_gen e Hm h m l fsize fin s I B) as (h' & m' & r & E & St & D & T).
  exists h', m', r. split; [exact E|]. split; [apply St|]. split.
  - intro Hr. destruct (D Hr) as [I' L]. split; [|exact L]. eapply minv_result; [exact I'|apply agrees_refl].
  - intro Hr. destruct (T Hr) as [X Y]. split; [exact X|]. intro Z. destruct (Y Z) as [l' I']. exists l'. now apply (Minv_load e).
Qed.
Print Assumptions C98_read_all.

(** Two blocks, two files: pieces, interruptions, overwriting, reading over a
    longer and a linked block. *)
Definition disk_ops : list dop :=
  [DMem (MAssign 0 (Some (0, 0%Z)) 8);
   DWrite 0 0 [SOk 0; SOk 3; SIntr; SOk 1; SOk 9; SOk 0];
   DMem (MLink 1 (Some (0, 2%Z)) 5);
   DWrite 1 1 [SOk 0; SOk 5; SIntr; SOk 0];
   DRead 0 1 [SOk 0; SOk 0; SOk 1; SAgain; SOk 0; SIntr; SOk 1; SOk 0];
   DRead 1 0 [SOk 0; SOk 0; SOk 7; SOk 0];
   DWrite 0 0 [SOk 0; SOk 5; SOk 0]].
Example C98_history : callers nine /\ dops_pre nine (repeat [] 2, [None; Some [None]]) disk_ops /\
  dspec_run nine (repeat [] 2, [None; Some [None]]) disk_ops =
    ([map Some [3; 4; 5; 6; 7]; map Some [1; 2; 3; 4; 5; 6; 7; 8]]%Z, [Some (map Some [3; 4; 5; 6; 7]%Z); Some (map Some [3; 4; 5; 6; 7]%Z)]).
Proof.
  split; [exact nine_callers|]. split; [|reflexivity]. unfold disk_ops.
  split. { split; [cbn; lia|]. split; [lia|]. eexists. reflexivity. }
  split. { split; [cbn; lia|]. split; [cbn; lia|]. exists 0, [SOk 3; SIntr; SOk 1; SOk 9], [SOk 0], []. split; [reflexivity|].
    split; [repeat constructor|]. split; [right; vm_compute; lia|]. split; [vm_compute; lia|]. split; [reflexivity|constructor]. }
  split. { split; [cbn; lia|]. split; [lia|]. right. eexists. reflexivity. }
  split. { split; [cbn; lia|]. split; [cbn; lia|]. exists 0, [SOk 5], [SIntr; SOk 0], [SIntr]. split; [reflexivity|].
    split; [repeat constructor|]. split; [right; vm_compute; lia|]. split; [vm_compute; lia|]. split; [reflexivity|repeat constructor]. }
  split. { split; [cbn; lia|]. eexists. split; [reflexivity|]. split; [vm_compute; lia|]. split; [vm_compute; discriminate|].
    exists 0, 0, [SOk 1; SAgain; SOk 0; SIntr; SOk 1], [SOk 0], []. split; [reflexivity|].
    split; [repeat constructor; discriminate|]. split; [right; vm_compute; lia|]. split; [vm_compute; lia|]. split; [reflexivity|constructor]. }
  split. { split; [cbn; lia|]. eexists. split; [reflexivity|]. split; [vm_compute; lia|]. split; [vm_compute; discriminate|].
    exists 0, 0, [SOk 7], [SOk 0], []. split; [reflexivity|].
    split; [repeat constructor; discriminate|]. split; [right; vm_compute; lia|]. split; [vm_compute; lia|]. split; [reflexivity|constructor]. }
  split; [|exact I]. split; [cbn; lia|]. split; [cbn; lia|]. exists 0, [SOk 5], [SOk 0], []. split; [reflexivity|].
  split; [repeat constructor|]. split; [right; vm_compute; lia|]. split; [vm_compute; lia|]. split; [reflexivity|constructor].
Qed.
(** A crash in the middle: a prefix. *)
Example C98_crash_example : write_file (Some [9; 9]) [1; 2; 3; 4] [SOk 0; SOk 3] = (Some [1; 2; 3], Crashed).
Proof. reflexivity. Qed.
(** The write loop here is the one of FileModel with exceptions on. *)
Example C98_same_loop s d l i : match d_write s d l with
  | (d', Done, t) => exists n, fwrite l (mkf 0 allbadbits d i s) = Ok (mkf 0 allbadbits d' i t, Val n)
  | (d', Threw x, t) => exists st, fwrite l (mkf 0 allbadbits d i s) = Ok (mkf st allbadbits d' i t, Thrown x)
  | (_, Crashed, _) => fwrite l (mkf 0 allbadbits d i s) = NoFuel
  end.
Proof. unfold fwrite. apply d_write_fwrite_loop. cbn [f_sched]. lia. Qed.

(** ** C99: what write_file and read_file do not guarantee *)
(** When a write would block, write_file stops and reports success, whatever
    was left to write. *)
Theorem C99_again_refuted {A} (l : list A) k c : 0 < c < length l ->
  write_file None l [SOk k; SOk c; SAgain; SOk 0] = (Some (firstn c l), Done) /\ firstn c l <> l.
Proof.
  intro H. split.
  - unfold write_file. cbn [sys_opens]. destruct l as [|x l]; [cbn in H; lia|].
    cbn [d_write]. rewrite Nat.min_l by lia. destruct c as [|c]; [lia|].
    destruct (skipn (S c) (x :: l)) as [|y t] eqn:E.
    { apply (f_equal (@length _)) in E. rewrite skipn_length in E. cbn [length] in *. lia. }
    reflexivity.
  - intro E. apply (f_equal (@length _)) in E. rewrite firstn_length in E. lia.
Qed.
Print Assumptions C99_again_refuted.
(** A crash can leave neither the old nor the new contents. *)
Theorem C99_atomic_refuted : ~ forall (old l : list Z) s new r,
  write_file (Some old) l s = (new, r) -> new = Some old \/ new = Some l.
Proof. intro H. destruct (H [7%Z] [8%Z] [SOk 0] (Some []) Crashed eq_refl) as [X|X]; discriminate. Qed.
Print Assumptions C99_atomic_refuted.
(** string::read_file leaves the string without a terminator: a string "abcdef"
    that reads a file with "xy" has size 2 and c_str() "xycdef". *)
Theorem C99_string_refuted : exists h m h' m',
  h = [mkblk (map Some [97; 98; 99; 100; 101; 102; 0]%Z ++ [None]) 0 Owned] /\ m = mkmb (Some (0, 0%Z)) 6 8 /\
  read_file env0 1 h m 2 (map Some [120; 121]%Z) [SOk 0; SOk 0; SOk 1; SOk 0] = Ok (h', m', Done) /\
  msize m' = 2%Z /\ load_n h' (mptr m') 7 = Ok (map Some [120; 121; 99; 100; 101; 102; 0]%Z).
Proof. do 4 eexists. split; [reflexivity|]. split; [reflexivity|]. split; [lazy; reflexivity|]. split; lazy; reflexivity. Qed.
Print Assumptions C99_string_refuted.
(** A block linked to 8 bytes that fails to read a file of 4 is left with size
    8 and 4 bytes of storage. *)
Theorem C99_linked_refuted : exists h m h' m',
  mrun env0 (nine, [mb_nil]) [MLink 0 (Some (0, 0%Z)) 8] = Ok (h, [m]) /\
  read_file env0 0 h m 4 (map Some [1; 2; 3; 4]%Z) [SOk 0; SOk 0; SErr; SOk 0] = Ok (h', m', Threw file_exception) /\
  msize m' = 8%Z /\ mcap m' = 4%Z /\ mb_bytes h' m' = UB.
Proof. do 4 eexists. split; [lazy; reflexivity|]. split; [lazy; reflexivity|]. repeat split; lazy; reflexivity. Qed.
Print Assumptions C99_linked_refuted.
