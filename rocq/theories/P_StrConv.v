(** * Properties C231, C232: strings as C strings. *)
From Verif Require Import Base UtilModel StoreModel VectorSpec VectorFacts MemModel MemSpec MemProofs MemRun MemFacts
  StringModel StringSpec StringProofs StringRun StringFacts StrConvModel.
From Coq Require Import List ZArith Lia Bool.
Import ListNotations.
Local Open Scope Z_scope.

(** What a successful read says about the block. *)
Lemma load_inside h b o n l : 0 < n -> load_n h (Some (b, o)) n = Ok l ->
  exists k, nth_error h b = Some k /\ 0 <= o /\ l = firstn (Z.to_nat n) (skipn (Z.to_nat o) (bcells k)) /\ length l = Z.to_nat n.
Proof.
  intros Hn H. pose proof (load_length h (Some (b, o)) n l ltac:(lia) H) as L.
  unfold load_n in H. destruct (Z.eqb_spec n 0) as [->|_]; [lia|].
  unfold rd in H. destruct (nth_error h b) as [k|]; [|discriminate]. cbn [bind] in H.
  destruct (readable (bkind k) && in_range o n (bcells k)) eqn:R; [|discriminate].
  apply andb_true_iff in R as (_ & R). unfold in_range in R. apply andb_true_iff in R as (R & _). apply andb_true_iff in R as (R & _).
  apply Z.leb_le in R. injection H as H. exists k. split; [reflexivity|]. split; [exact R|]. split; [|exact L].
  rewrite <- H. unfold slice. f_equal. lia.
Qed.
Lemma c_prefix_end l post : c_prefix (l ++ Some 0 :: post) = c_prefix l.
Proof. induction l as [|[c|] t IH]; [reflexivity| |reflexivity]. cbn [app c_prefix]. destruct (c =? 0); [reflexivity|]. rewrite IH. reflexivity. Qed.
Lemma c_prefix_text l : Forall (fun c => c <> 0) l -> c_prefix (map Some l) = map Some l.
Proof.
  induction 1 as [|c t Hc _ IH]; [reflexivity|]. cbn [map c_prefix].
  destruct (Z.eqb_spec c 0) as [E|_]; [destruct (Hc E)|]. rewrite IH. reflexivity.
Qed.
(** A readable run of bytes followed by a zero is a C string. *)
Lemma c_bytes_of h p n l : 0 <= n -> load_n h p n = Ok l -> load_n h (padd p n) 1 = Ok [Some 0] -> c_bytes h p = c_prefix l.
Proof.
  intros Hn Hl Hz. destruct p as [[b o]|]; [|cbn in Hz; discriminate]. cbn [padd] in Hz.
  destruct (load_inside h b (o + n) 1 _ ltac:(lia) Hz) as (k & Hk & Ho & E0 & _).
  assert (exists rest, skipn (Z.to_nat (o + n)) (bcells k) = Some 0 :: rest) as (rest & Er).
  { destruct (skipn (Z.to_nat (o + n)) (bcells k)) as [|x rest]; [discriminate|]. cbn in E0. injection E0 as <-. exists rest. reflexivity. }
  unfold c_bytes. rewrite Hk. clear E0 Hz.
  destruct (Z.eq_dec n 0) as [->|N0].
  - unfold load_n in Hl. cbn [Z.eqb] in Hl. injection Hl as <-. rewrite Z.add_0_r in Er. rewrite Er. reflexivity.
  - destruct (load_inside h b o n l ltac:(lia) Hl) as (k' & Hk' & Ho' & -> & _). rewrite Hk in Hk'. injection Hk' as <-.
    transitivity (c_prefix (firstn (Z.to_nat n) (skipn (Z.to_nat o) (bcells k)) ++ Some 0 :: rest)); [|apply c_prefix_end].
    f_equal. rewrite <- Er. replace (Z.to_nat (o + n)) with (Z.to_nat n + Z.to_nat o)%nat by lia.
    rewrite <- (firstn_skipn (Z.to_nat n) (skipn (Z.to_nat o) (bcells k))) at 1. f_equal. now rewrite skipn_skipn.
Qed.

(** After any history as in C36, every string is either null (moved from, and
    empty), or both conversions succeed and give a C string that has the
    string's bytes up to its first zero. *)
Theorem C231_c_string (e : env) (h0 : heap) (nul : ptr) (k : nat) (ops : list sop) :
  good_env e -> enough_memory e -> callers h0 -> NulBlk nul h0 ->
  sops_pre h0 (repeat [] k) ops -> careful e nul h0 (repeat [] k) (h0, repeat (str_nil nul) k) ops ->
  exists h ms, srun e nul (h0, repeat (str_nil nul) k) ops = Ok (h, ms) /\
    Forall2 (fun m s => mptr m = None /\ s = [] \/
      exists p l, to_const_chars h m = Ok p /\ to_chars h m = Ok p /\ mb_bytes h m = Ok l /\ agrees s l /\ c_bytes h p = c_prefix l)
      ms (sspec_run h0 (repeat [] k) ops).
Proof.
  intros He Hm Hc Hn P C. destruct (srun_correct e He Hm h0 Hc nul Hn k ops P C) as (h & ms & E & R & _).
  exists h, ms. split; [exact E|]. clear E. induction R as [|m s ms ss Hms R IH]; [constructor|]. constructor; [|exact IH].
  destruct Hms as ((Sz & (l & Hl & A) & _) & [Z0|Z0] & _); [left; exact Z0|]. right.
  assert (exists q, mptr m = Some q) as (q & Q).
  { destruct (mptr m) as [q|] eqn:Q; [exists q; reflexivity|]. unfold str_last in Z0. rewrite Q in Z0. discriminate. }
  exists (mptr m), l. unfold to_chars, to_const_chars. rewrite Q.
  assert (Z1 : load_n h (padd (Some q) (msize m)) 1 = Ok [Some 0]) by (rewrite <- Q; exact Z0).
  rewrite Z1. split; [reflexivity|]. split; [reflexivity|]. split; [exact Hl|]. split; [exact A|].
  apply (c_bytes_of h (Some q) (msize m)); [lia|rewrite <- Q; exact Hl|exact Z1].
Qed.
Print Assumptions C231_c_string.
(** So a string of non-zero bytes converts to exactly itself. *)
Theorem C231_text (e : env) (h0 : heap) (nul : ptr) (k : nat) (ops : list sop) (i : nat) (t : list Z) :
  good_env e -> enough_memory e -> callers h0 -> NulBlk nul h0 ->
  sops_pre h0 (repeat [] k) ops -> careful e nul h0 (repeat [] k) (h0, repeat (str_nil nul) k) ops ->
  nth_error (sspec_run h0 (repeat [] k) ops) i = Some (map Some t) -> Forall (fun c => c <> 0) t -> t <> [] ->
  exists h ms m p, srun e nul (h0, repeat (str_nil nul) k) ops = Ok (h, ms) /\ nth_error ms i = Some m /\
    to_const_chars h m = Ok p /\ to_chars h m = Ok p /\ c_bytes h p = map Some t.
Proof.
  intros He Hm Hc Hn P C Hi Ht Hne. destruct (C231_c_string e h0 nul k ops He Hm Hc Hn P C) as (h & ms & E & R).
  assert (X : forall ms ss j s, Forall2 (fun m s => mptr m = None /\ s = [] \/
      exists p l, to_const_chars h m = Ok p /\ to_chars h m = Ok p /\ mb_bytes h m = Ok l /\ agrees s l /\ c_bytes h p = c_prefix l) ms ss ->
      nth_error ss j = Some s -> exists m, nth_error ms j = Some m /\ (mptr m = None /\ s = [] \/
      exists p l, to_const_chars h m = Ok p /\ to_chars h m = Ok p /\ mb_bytes h m = Ok l /\ agrees s l /\ c_bytes h p = c_prefix l)).
  { clear. intros ms ss j s R. revert j. induction R as [|m s' ms ss H R IH]; intros [|j] Hj; try discriminate.
    - injection Hj as ->. exists m. split; [reflexivity|exact H].
    - exact (IH j Hj). }
  destruct (X _ _ _ _ R Hi) as (m & Em & [(_ & Q)|(p & l & A1 & A2 & A3 & A4 & A5)]).
  - destruct t; [destruct (Hne eq_refl)|discriminate].
  - exists h, ms, m, p. split; [exact E|]. split; [exact Em|]. split; [exact A1|]. split; [exact A2|]. rewrite A5.
    assert (l = map Some t) as ->; [|apply c_prefix_text, Ht].
    clear -A4. remember (map Some t) as s eqn:Es. revert t Es. unfold agrees in A4.
    induction A4 as [|x y s l Hxy A IH]; intros [|c t] Es; try discriminate; [reflexivity|]. cbn [map] in *. injection Es as -> Es.
    f_equal; [destruct Hxy as [Hx|Hx]; [discriminate|symmetry; exact Hx]|]. exact (IH t Es).
Qed.
Print Assumptions C231_text.
(** A string moved from: the conversion to char* fails its assertion, and the
    one to const char* gives a null pointer. *)
Theorem C232_moved_refuted : exists h m m1,
  srun env0 nul0 (start 2) [SAssign 0 hello 5; SMoveOf 1 0] = Ok (h, [m; m1]) /\
  to_chars h m = UB /\ to_const_chars h m = Ok None.
Proof.
  destruct moved_null as (h & m & m1 & E & Q & _). exists h, m, m1. split; [exact E|].
  unfold to_chars, to_const_chars. rewrite Q. split; reflexivity.
Qed.
Print Assumptions C232_moved_refuted.
(** Not vacuous. *)
Example C231_example : exists h ms m p, srun env0 nul0 (start 1) [SAssign 0 hello 5; SErase 0 1 2] = Ok (h, ms) /\ nth_error ms 0 = Some m /\
  to_chars h m = Ok p /\ c_bytes h p = map Some [104; 108; 111].
Proof. do 4 eexists. split; [vm_compute; reflexivity|]. repeat split; vm_compute; reflexivity. Qed.
Example C231_history : good_env env0 /\ enough_memory env0 /\ callers text /\ NulBlk nul0 text /\
  sops_pre text (repeat [] 4) sops1 /\ careful env0 nul0 text (repeat [] 4) (start 4) sops1.
Proof. exact (conj env0_good (conj env0_mem (conj text_callers (conj text_nul (conj sops1_pre sops1_careful))))). Qed.
