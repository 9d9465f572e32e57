(** * SerialFacts: concrete failures of the serialisers, and the cases for P_Stream. *)
From Verif Require Import Base UtilModel StoreModel VectorModel VectorSpec MemModel StringModel Utf8Model.
From Verif Require Import StreamModel StreamSpec SerialModel SerialTypes SerialSpec SerialProofs.
From Coq Require Import ZArith ZifyBool ZifyNat.
Local Open Scope Z_scope.

(** A fresh output stream over [n] bytes at address [a]. *)
Definition room (n : nat) (a : Z) : ostream := os_open (repeat 170 n) a.
Lemma room_inside n a : 0 <= a < 2 ^ 62 -> (n < 4096)%nat -> o_inside (room n a).
Proof. intros Ha Hn. unfold o_inside, room, os_open. cbn [opos odata oaddr]. rewrite repeat_length. lia. Qed.
(** What the writer left, for the reader. *)
Definition written (s : ostream) : istream := is_open (firstn (Z.to_nat (opos s)) (odata s)).

(** vector<uint64_t> {5} in a buffer whose address is 4 more than a multiple of 8. *)
Lemma off_by_four : exists s' v, cwrite (codec_of false (TVec (TInt 8))) [5] (room 16 4) = Ok (s', Val tt) /\
  cread (codec_of false (TVec (TInt 8))) [] (is_open (odata s')) = v /\ v <> Ok (mkis (odata s') (opos s') 0 7, Val [5]) /\
  exists i l, v = Ok (i, Val l) /\ l <> [5].
Proof.
  eexists; eexists. split; [vm_compute; reflexivity|]. split; [vm_compute; reflexivity|]. split; [discriminate|].
  eexists; eexists. split; [reflexivity|discriminate].
Qed.
(** vector<pair<pair<string,uint8_t>,uint8_t>> {(("",0),0)}: written to 8 bytes, which read as an error. *)
Definition vec_s88 : ty := TVec (TPair (TPair TStr (TInt 1)) (TInt 1)).
Lemma vec_s88_fails dbg : valid vec_s88 [(([], 0), 0)] /\ exists s', cwrite (codec_of dbg vec_s88) [(([], 0), 0)] (room 16 64) = Ok (s', Val tt) /\
  opos s' = 8 /\ exists i, cread (codec_of dbg vec_s88) [] (written s') = Ok (i, Thrown stream_bounds).
Proof.
  split; [repeat constructor; cbn; try lia|]. destruct dbg; eexists; (split; [vm_compute; reflexivity|]); (split; [reflexivity|]); eexists; vm_compute; reflexivity.
Qed.
(** map<string,uint64_t> {("abcdefg",5)}: stream_size says 20, but 24 are needed. *)
Definition map_s64 : ty := TVec (TPair TStr (TInt 8)).
Definition abcdefg5 : val map_s64 := [([97; 98; 99; 100; 101; 102; 103], 5)].
Lemma map_s64_fails : valid map_s64 abcdefg5 /\ forall dbg, csize (codec_of dbg map_s64) abcdefg5 = 20 /\
  (exists s, cwrite (codec_of dbg map_s64) abcdefg5 (room 20 64) = Ok (s, Thrown stream_bounds)) /\
  exists s, cwrite (codec_of dbg map_s64) abcdefg5 (room 24 64) = Ok (s, Val tt) /\ opos s = 24.
Proof.
  split; [repeat constructor; cbn; try lia|]. intros dbg. destruct dbg; (split; [vm_compute; reflexivity|]; split; eexists; [vm_compute; reflexivity|]; split; vm_compute; reflexivity).
Qed.
(** vector<vector<uint64_t>> {{}}. *)
Definition vec_v64 : ty := TVec (TVec (TInt 8)).
Lemma vec_v64_fails dbg : exists s', cwrite (codec_of dbg vec_v64) [[]] (room 12 64) = Ok (s', Val tt) /\
  exists i, cread (codec_of dbg vec_v64) [] (written s') = Ok (i, Thrown stream_bounds).
Proof. destruct dbg; eexists; (split; [vm_compute; reflexivity|]); eexists; vm_compute; reflexivity. Qed.
(** map<uint64_t,string> {(5,"a")}: the assertions of a debug build fail. *)
Definition map_64s : ty := TVec (TPair (TInt 8) TStr).
Lemma map_64s_asserts : cwrite (codec_of true map_64s) [(5, [97])] (room 40 64) = UB.
Proof. vm_compute. reflexivity. Qed.

(** Strings read from hostile bytes. *)
Lemma lead_fe dbg old : str_read dbg old (is_open [254; 191; 191; 191; 191; 191; 191]) = UB.
Proof. destruct dbg; vm_compute; reflexivity. Qed.
Lemma empty_quiet dbg old : str_read dbg old (mkis [] 0 0 0) = UB.
Proof. destruct dbg; vm_compute; reflexivity. Qed.
