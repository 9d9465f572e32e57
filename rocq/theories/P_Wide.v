(** * Properties C117, C118: strings edited with wide characters. *)
From Verif Require Import Base UtilModel Utf8Model Utf8Spec Utf8Proofs StoreModel VectorSpec VectorFacts MemModel MemSpec MemProofs MemRun MemFacts
  StringModel StringSpec StringProofs StringRun StringFacts WideModel WideSpec WideProofs.
From Coq Require Import ZArith ZifyBool ZifyNat.
Local Open Scope Z_scope.

(** ** C117 *)
(** On bytes: any history that mixes the wide edits with the other operations
    on strings.  Every string has the specified size and bytes, is terminated,
    the caller's memory is untouched and no allocation is lost. *)
Theorem C117_bytes (e : env) (h0 : heap) (nul : ptr) (k : nat) (ops : list wop) :
  good_env e -> enough_memory e -> callers h0 -> NulBlk nul h0 ->
  wops_pre h0 (repeat [] k) ops -> wcareful e nul h0 (repeat [] k) (h0, repeat (str_nil nul) k) ops ->
  exists h ms, wrun e nul (h0, repeat (str_nil nul) k) ops = Ok (h, ms) /\
    Forall2 (sresult h) ms (wspec_run h0 (repeat [] k) ops) /\ firstn (length h0) h = h0 /\
    (forall b x, nth_error h b = Some x -> bkind x = Owned -> exists m o, In m ms /\ is_linked m = false /\ mptr m = Some (b, o)).
Proof. intros He Hm Hc Hn. exact (wrun_correct e He Hm h0 Hc nul Hn k ops). Qed.
Print Assumptions C117_bytes.
(** On characters: any history of wide edits at character positions.  Reading
    the string back as UTF-8 gives the characters of a sequence edited the
    same way, and length() counts them. *)
Theorem C117_characters (e : env) (h0 : heap) (nul : ptr) (k : nat) (ops : list cop) :
  good_env e -> enough_memory e -> callers h0 -> NulBlk nul h0 -> cops_pre (repeat [] k) ops ->
  exists h ms, wrun e nul (h0, repeat (str_nil nul) k) (calls_of (repeat [] k) ops) = Ok (h, ms) /\
    Forall2 (fun m w => exists b, mb_bytes h m = Ok (map Some b) /\ msize m = Z.of_nat (length b) /\
      utf8_in_all b = Ok w /\ str_length b = Ok (Z.of_nat (length w))) ms (cspec_run (repeat [] k) ops).
Proof.
  intros He Hm Hc Hn P.
  assert (E0 : repeat [] k = map enc_str (repeat [] k)) by now rewrite map_repeat'.
  destruct (C117_bytes e h0 nul k (calls_of (repeat [] k) ops) He Hm Hc Hn) as (h & ms & E & R & _).
  - rewrite E0. apply enc_pres; [|exact P]. intros i. rewrite repeat_nil_get. cbn. lia.
  - apply calls_careful.
  - exists h, ms. split; [exact E|]. rewrite E0, <- (enc_run h0) in R.
    assert (F : Forall (Forall is_char) (cspec_run (repeat [] k) ops)).
    { apply chars_run; [|exact P]. apply Forall_forall. intros x Hx. apply repeat_spec in Hx. subst. constructor. }
    clear E P. revert R F. generalize (cspec_run (repeat [] k) ops). intros ws. revert ms.
    induction ws as [|w t IH]; intros ms R F; inversion R as [|m s ms' ss' Hms R']; subst; [constructor|]. inversion F; subst.
    constructor; [|now apply IH]. destruct Hms as ((Sz & (l & L & A) & _) & _).
    exists (encode_all w). apply agrees_some in A. subst l. split; [exact L|].
    split; [rewrite Sz; unfold enc_str; now rewrite map_length|].
    split; [now apply utf8_in_all_ok|now apply str_length_ok].
Qed.
Print Assumptions C117_characters.
(** wiat (j) is the byte position those edits are made at. *)
Theorem C117_position (w : list Z) (j : nat) : Forall is_char w -> (j <= length w)%nat ->
  str_wiat (encode_all w) j = Ok (char_pos w j).
Proof. exact (wiat_ok w j). Qed.
Print Assumptions C117_position.

(** ** C118 *)
(** Inserting a four byte character after five of fourteen ASCII characters
    moves the wrong bytes (C21): the text is not the expected one. *)
Theorem C118_insert_moves_refuted : exists h m l,
  wrun env0 nul0 (start 1) [WNarrow (SAssign 0 (Some (3%nat, 0)) 14); WInsertFill 0 5 1 128512] = Ok (h, [m]) /\
  mb_bytes h m = Ok l /\
  l <> map Some ([0; 1; 2; 3; 4] ++ encode 128512 ++ [5; 6; 7; 8; 9; 10; 11; 12; 13]).
Proof. eexists _, _, _. split; [vm_compute; reflexivity|]. split; [vm_compute; reflexivity|]. vm_compute. discriminate. Qed.
Print Assumptions C118_insert_moves_refuted.
(** A character with the top bit set: undefined, whatever the string. *)
Theorem C118_upper_half_refuted (e : env) (h : heap) (m : mb) (ipo n c : Z) (h' : heap) (m' : mb) :
  -(2 ^ 31) <= c < 0 -> 0 < n -> insert e 1 h m (clamp m ipo) (u64 (n * utf8_bytes c)) = Ok (h', m') ->
  str_insert_wfill e h m ipo n c = UB.
Proof.
  intros Hc Hn E. unfold str_insert_wfill. rewrite E. cbn [bind]. destruct (Z.to_nat n) as [|k] eqn:K; [lia|].
  cbn [wfill_n]. unfold wput. rewrite utf8_out_negative by exact Hc. reflexivity.
Qed.
Print Assumptions C118_upper_half_refuted.

(** ** Non-vacuity: characters of one to four bytes, appended, inserted in the middle, repeated. *)
Definition cops1 : list cop :=
  [CPushBack 0 65; CAppendFill 0 2 8364; CInsertFill 0 1 1 233; CInsert 0 4 [128512; 66] 2; CAssignFill 1 3 945; CInsert 1 0 [] 5].
Example wide_history : cops_pre (repeat [] 2) cops1 /\
  cspec_run (repeat [] 2) cops1 = [[65; 233; 8364; 8364; 128512; 66; 128512; 66]; [945; 945; 945]].
Proof.
  split; [|vm_compute; reflexivity]. unfold cops1. cbn [cops_pre].
  assert (V : Forall is_char [65; 8364; 233; 128512; 66; 945]) by (repeat (apply Forall_cons; [unfold is_char; lia|]); apply Forall_nil).
  rewrite Forall_forall in V.
  assert (V1 : Forall is_char [128512; 66]) by (repeat (apply Forall_cons; [apply V; cbn; tauto|]); apply Forall_nil).
  split; [|split; [|split; [|split; [|split; [|split; [|exact I]]]]]].
  - split; [vm_compute; lia|]. split; [apply V; cbn; tauto|vm_compute; reflexivity].
  - split; [vm_compute; lia|]. split; [lia|]. split; [apply V; cbn; tauto|vm_compute; reflexivity].
  - split; [vm_compute; lia|]. split; [vm_compute; lia|]. split; [lia|]. split; [apply V; cbn; tauto|]. split; [vm_compute; reflexivity|].
    right; right. vm_compute. reflexivity.
  - split; [vm_compute; lia|]. split; [vm_compute; lia|]. split; [lia|]. split; [exact V1|]. split; [vm_compute; reflexivity|]. split; [vm_compute; reflexivity|].
    right; left. vm_compute. discriminate.
  - split; [vm_compute; lia|]. split; [lia|]. split; [apply V; cbn; tauto|vm_compute; reflexivity].
  - split; [vm_compute; lia|]. split; [vm_compute; lia|]. split; [lia|]. split; [constructor|]. split; [vm_compute; reflexivity|]. split; [vm_compute; reflexivity|].
    left. vm_compute. reflexivity.
Qed.
Example wide_call : calls_of (repeat [] 2) cops1 =
  [WPushBack 0 65; WAppendFill 0 2 8364; WInsertFill 0 1 1 233; WInsert 0 9 [128512; 66] 2; WAssignFill 1 3 945; WInsert 1 0 [] 5].
Proof. vm_compute. reflexivity. Qed.
