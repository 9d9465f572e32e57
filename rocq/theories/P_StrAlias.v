(** * Property C200: strings and the arrays they were made from. *)
From Verif Require Import Base UtilModel StoreModel VectorSpec VectorFacts MemModel MemSpec MemProofs MemRun MemFacts
  StringModel StringSpec StringProofs StringRun StringFacts StrAliasProofs.
From Coq Require Import ZArith ZifyBool ZifyNat.
Local Open Scope Z_scope.

(** ** C200: a string keeps its text whatever the program does afterwards with
    the arrays it was given.  True of every string that has its own storage
    (is_linked() is false): after any history of string operations let the
    program overwrite or free all its own memory -- [h'] agrees with [h] only
    in what the library allocated -- and the text is what it was. *)
Theorem C200_own_storage_partial (e : env) (h0 : heap) (nul : ptr) (k : nat) (ops : list sop) h ms i m (h' : heap) :
  good_env e -> enough_memory e -> callers h0 -> NulBlk nul h0 ->
  sops_pre h0 (repeat [] k) ops -> careful e nul h0 (repeat [] k) (h0, repeat (str_nil nul) k) ops ->
  srun e nul (h0, repeat (str_nil nul) k) ops = Ok (h, ms) -> nth_error ms i = Some m -> is_linked m = false ->
  skipn (length h0) h' = skipn (length h0) h -> (length h0 <= length h')%nat ->
  mb_bytes h' m = mb_bytes h m.
Proof. apply own_unchanged. Qed.
Print Assumptions C200_own_storage_partial.
(** That is so after assignment of a non-empty text, string (p, n) included,
    and after appending. *)
Theorem C200_assign_owns_partial (e : env) (nul : ptr) h m p n h' m' :
  0 < n -> n < 2 ^ 31 -> str_assign e nul h m p n = Ok (h', m') -> is_linked m' = false.
Proof. apply str_assign_owns. Qed.
Print Assumptions C200_assign_owns_partial.
Theorem C200_append_owns_partial (e : env) (nul : ptr) h m p n h' m' :
  0 <= msize m -> 0 < n -> msize m + n < 2 ^ 31 -> str_append e nul h m p n = Ok (h', m') -> is_linked m' = false.
Proof. apply str_append_owns. Qed.
Print Assumptions C200_append_owns_partial.

(** But string s (p) for an array p of the program, and a copy t of s: writing
    any character of the array changes s and t ... *)
Theorem C200_array_written_refuted (e : env) (nul : ptr) (h : heap) b pre post (l : list Z) base (k : nat) c :
  nth_error h b = Some (mkblk (pre ++ map Some l ++ Some 0 :: post) base Foreign) ->
  Forall (fun x => x <> 0) l -> (k < length l)%nat ->
  let p := Some (b, Z.of_nat (length pre)) in
  exists s t h', str_of_c nul h p = Ok (h, s) /\ str_copy e h s = Ok (h, t) /\
    mb_bytes h s = Ok (map Some l) /\ mb_bytes h t = Ok (map Some l) /\
    store_n h (padd p (Z.of_nat k)) [Some c] = Ok h' /\
    mb_bytes h' s = Ok (map Some (firstn k l ++ c :: skipn (S k) l)) /\
    mb_bytes h' t = Ok (map Some (firstn k l ++ c :: skipn (S k) l)).
Proof.
  intros Hb Hl Hk p. destruct (text_poke h b pre post l base Hb k c Hk) as (h' & Es & En).
  exists (mkmb p (Z.of_nat (length l)) 0), (mkmb p (Z.of_nat (length l)) 0), h'.
  pose proof (text_at b pre post l h l base Hb eq_refl) as T1.
  assert (T2 : mb_bytes h' (mkmb p (Z.of_nat (length l)) 0) = Ok (map Some (firstn k l ++ c :: skipn (S k) l))).
  { apply (text_at b pre post l h' _ base En). rewrite app_length, firstn_length. cbn [length]. rewrite skipn_length. lia. }
  split; [exact (text_of_c nul h b pre post l base Hb Hl)|]. split; [reflexivity|].
  split; [exact T1|]. split; [exact T1|]. split; [exact Es|]. split; [exact T2|exact T2].
Qed.
Print Assumptions C200_array_written_refuted.
(** ... and when the array is gone, reading them is undefined. *)
Theorem C200_array_gone_refuted (e : env) (nul : ptr) (h : heap) b pre post (l : list Z) base :
  nth_error h b = Some (mkblk (pre ++ map Some l ++ Some 0 :: post) base Foreign) ->
  Forall (fun x => x <> 0) l -> l <> [] ->
  let p := Some (b, Z.of_nat (length pre)) in
  exists s h', str_of_c nul h p = Ok (h, s) /\ mb_bytes h s = Ok (map Some l) /\
    wr h b (mkblk (pre ++ map Some l ++ Some 0 :: post) base Freed) = Ok h' /\ mb_bytes h' s = UB.
Proof.
  intros Hb Hl Hn p. destruct (wr_hset h b _ (mkblk (pre ++ map Some l ++ Some 0 :: post) base Freed) Hb) as (h' & Ew & _ & En & _).
  exists (mkmb p (Z.of_nat (length l)) 0), h'. split; [exact (text_of_c nul h b pre post l base Hb Hl)|].
  split; [exact (text_at b pre post l h l base Hb eq_refl)|]. split; [exact Ew|].
  unfold mb_bytes, load_n. cbn [msize mptr]. destruct l as [|x l]; [congruence|].
  replace (Z.of_nat (length (x :: l)) =? 0) with false by (cbn [length]; lia). unfold p, rd. rewrite En. reflexivity.
Qed.
Print Assumptions C200_array_gone_refuted.

(** "abcdef" in an array, linked by s, copied into t; the array is overwritten. *)
Example C200_example : exists h s t h',
  srun env0 nul0 (start 2) [SOfC 0 abcdef; SAssignStr 1 0] = Ok (h, [s; t]) /\ is_linked s = true /\ is_linked t = false /\
  sops_pre text (repeat [] 2) [SOfC 0 abcdef; SAssignStr 1 0] /\
  careful env0 nul0 text (repeat [] 2) (start 2) [SOfC 0 abcdef; SAssignStr 1 0] /\
  store_n h abcdef [Some 120] = Ok h' /\ skipn (length text) h' = skipn (length text) h /\
  mb_bytes h' s = Ok (map Some [120; 98; 99; 100; 101; 102]) /\ mb_bytes h' t = Ok (map Some [97; 98; 99; 100; 101; 102]).
Proof.
  eexists _, _, _, _. split; [vm_compute; reflexivity|]. split; [reflexivity|]. split; [reflexivity|].
  split.
  { split; [|split; [cbn; lia|exact I]]. split; [cbn; lia|]. right.
    exists 2%nat, (mkblk (map Some [97; 98; 99; 100; 101; 102; 0]) 8224 Foreign), [], [97; 98; 99; 100; 101; 102], [].
    split; [reflexivity|]. split; [reflexivity|]. split; [reflexivity|]. split; [repeat constructor; lia|cbn; lia]. }
  split; [split; [exact I|intros s1 _; split; [exact I|intros s2 _; exact I]]|]. split; [vm_compute; reflexivity|]. split; [vm_compute; reflexivity|]. split; vm_compute; reflexivity.
Qed.
