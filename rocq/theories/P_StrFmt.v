(** * Properties C92, C93 (string::format), C94 (string::hash). *)
From Verif Require Import Base UtilModel UtilProofs StoreModel VectorSpec VectorFacts MemModel MemSpec MemProofs MemRun MemFacts
  StringModel StringSpec StringProofs StringRun StringFindModel StringFacts StrFmtModel StrFmtSpec StrFmtProofs.
From Coq Require Import ZArith ZifyBool ZifyNat.
Local Open Scope Z_scope.

(** ** C92 *)
(** Any history of string operations and calls of format, with at most two
    calls of vsnprintf each: every string has the specified size and bytes and
    is terminated; a formatted string has exactly the formatted text. *)
Theorem C92_format (e : env) (h0 : heap) (nul : ptr) (k fuel : nat) (ops : list fop) :
  good_env e -> enough_memory e -> callers h0 -> NulBlk nul h0 ->
  fops_pre h0 (repeat [] k) ops -> fcareful e nul (2 + fuel) h0 (repeat [] k) (h0, repeat (str_nil nul) k) ops ->
  exists h ms, frun e nul (2 + fuel) (h0, repeat (str_nil nul) k) ops = Ok (h, ms) /\
    Forall2 (sresult h) ms (fspec_run h0 (repeat [] k) ops) /\ firstn (length h0) h = h0.
Proof.
  intros He Hm Hc Hn P C. destruct (frun_tinv e He Hm h0 Hc nul Hn fuel ops _ _ _ (tinv_init e h0 nul Hn k) P C) as (h & ms & E & T & _).
  exists h, ms. split; [exact E|]. split; [eapply tinv_result; eauto|eapply sinv_foreign; eauto using t_sinv].
Qed.
Print Assumptions C92_format.
(** The call itself, on string [i] after any such history: it returns the
    length of the text, and the string's bytes and size are those of the text. *)
Theorem C92_format_result (e : env) (h0 : heap) (nul : ptr) (k fuel : nat) (ops : list fop) (h : heap) (ms : list mb) (i : nat) (m : mb) (t : list Z) :
  good_env e -> enough_memory e -> callers h0 -> NulBlk nul h0 ->
  fops_pre h0 (repeat [] k) ops -> fcareful e nul (2 + fuel) h0 (repeat [] k) (h0, repeat (str_nil nul) k) ops ->
  frun e nul (2 + fuel) (h0, repeat (str_nil nul) k) ops = Ok (h, ms) ->
  nth_error ms i = Some m -> mcap m < 2 ^ 31 -> (t = [] -> is_linked m = false) -> Z.of_nat (length t) + 1 < 2 ^ 31 ->
  exists h' m', str_vformat e nul (2 + fuel) h m (Some t) = Ok (h', m', Z.of_nat (length t)) /\
    mb_bytes h' m' = Ok (map Some t) /\ msize m' = Z.of_nat (length t) /\ str_last h' m' = Ok [Some 0] /\ is_linked m' = false.
Proof.
  intros He Hm Hc Hn P C R Ei Cm Ct Lt.
  destruct (frun_tinv e He Hm h0 Hc nul Hn fuel ops _ _ _ (tinv_init e h0 nul Hn k) P C) as (h1 & ms1 & E & T & _).
  change (S (S fuel)) with (2 + fuel)%nat in E. rewrite R in E. injection E as <- <-.
  destruct (s_ok _ _ _ _ _ (t_sinv _ _ _ _ _ T) i m Ei) as (l & Im & _).
  destruct (format_ok e Hm nul fuel h m l t Im) as (h' & m' & E & St & I' & Z' & C'); auto.
  { eapply tinv_nulblk; eauto. }
  { intros E. exact (owning_of e m (Ct E) h l Im). }
  exists h', m'. split; [exact E|]. destruct (minv_result e h' m' (map Some t) (map Some t) I') as (S' & (l' & L' & A') & _).
  { clear. induction t; constructor; auto. }
  assert (El : l' = map Some t).
  { clear -A'. revert l' A'. induction t as [|x t IH]; intros l' A'; inversion A' as [|? y ? l2 Hxy H2]; subst; [reflexivity|].
    cbn [map]. f_equal; [|now apply IH]. destruct Hxy; [discriminate|auto]. }
  rewrite map_length in S'. rewrite El in L'. split; [exact L'|]. split; [exact S'|]. split.
  - destruct Z' as [Z'|Z']; [|exact Z']. exfalso.
    destruct I' as (_ & [(C0 & _)|(_ & b & r & P' & _)]); [lia|congruence].
  - unfold is_linked. lia.
Qed.
Print Assumptions C92_format_result.

(** ** C93 *)
(** A string without storage of its own and an empty text: format never
    returns, however often it retries. *)
Theorem C93_empty_refuted (e : env) (nul : ptr) (h : heap) (m : mb) (fuel : nat) :
  is_linked m = true -> str_vformat e nul fuel h m (Some []) = NoFuel.
Proof. unfold is_linked. intros L. apply format_empty_loops. lia. Qed.
Print Assumptions C93_empty_refuted.
(** A string that has reserved 2^30 + 1 bytes or more: format never returns,
    whatever the text. *)
Theorem C93_reserved_refuted (e : env) (h0 : heap) (nul : ptr) :
  good_env e -> enough_memory e -> callers h0 -> NulBlk nul h0 ->
  exists h m, srun e nul (h0, [str_nil nul]) [SReserve 0 (2 ^ 30 + 1)] = Ok (h, [m]) /\ mcap m = 2 ^ 31 /\
    forall fuel t, Z.of_nat (length t) < 2 ^ 31 -> str_vformat e nul fuel h m (Some t) = NoFuel.
Proof.
  intros He Hm Hc Hn. destruct (srun_tinv e He Hm h0 Hc nul Hn [SReserve 0 (2 ^ 30 + 1)] _ _ _ (tinv_init e h0 nul Hn 1)) as (h & ms & E & T & _).
  { cbn [repeat sops_pre sop_pre length]. split; [|exact I]. split; [lia|]. split; [vm_compute; congruence|]. unfold fits. lia. }
  { cbn [repeat careful careful_op snd]. split; [|auto]. intros m Em. cbn [nth_error] in Em. injection Em as <-. cbn [mptr str_nil].
    destruct Hn as (b & base & -> & _). discriminate. }
  pose proof (s_len _ _ _ _ _ (t_sinv _ _ _ _ _ T)) as L. destruct ms as [|m [|m2 ms]]; [cbn in L; discriminate| |cbn in L; discriminate].
  cbn [repeat] in E. exists h, m. split; [exact E|].
  assert (C : mcap m = 2 ^ 31).
  { cbn [srun sstep] in E. unfold on in E. cbn [fst snd rd nth_error bind] in E. unfold reserve in E.
    replace (u64 (2 ^ 30 + 1 + 1)) with 1073741826 in E by reflexivity. cbn [mcap str_nil] in E.
    change (1073741826 <=? 0) with false in E. unfold rd in E. cbn [nth_error bind] in E.
    replace (next_pow2 1073741826) with (2 ^ 31) in E by (vm_compute; reflexivity).
    destruct (realloc _ _ _ _) as [[h1 nb]| | |]; cbn [bind] in E; try discriminate.
    unfold is_linked in E. cbn [mcap str_nil mptr msize Z.eqb] in E. destruct nul as [q|]; cbn [bind] in E.
    all: try (match type of E with context [copy_n ?a ?b ?c ?d] => destruct (copy_n a b c d) end; cbn [bind] in E; try discriminate).
    all: match type of E with context [link ?a ?b] => destruct (link a b) end; cbn [bind] in E; try discriminate.
    all: lazy beta iota delta [wr upd bind] in E; injection E as _ <-; reflexivity. }
  split; [exact C|]. intros fuel t Lt. destruct (s_ok _ _ _ _ _ (t_sinv _ _ _ _ _ T) 0%nat m eq_refl) as (l & Im & _).
  eapply format_huge_loops; eauto. eapply tinv_nulblk; eauto.
Qed.
Print Assumptions C93_reserved_refuted.
(** A conversion vsnprintf cannot do, on a string whose text starts a block
    that fits the address space: a byte outside the block is written. *)
Theorem C93_error_refuted (e : env) (nul : ptr) (h : heap) (m : mb) (b : nat) (k : blk) (fuel : nat) :
  mptr m = Some (b, 0) -> nth_error h b = Some k -> Z.of_nat (length (bcells k)) < 2 ^ 64 -> 0 <= mcap m ->
  str_vformat e nul (S fuel) h m None = UB.
Proof. exact (format_error e nul fuel h m b k). Qed.
Print Assumptions C93_error_refuted.

(** ** C94 *)
(** The hash is a 32-bit number. *)
Theorem C94_range (l : list Z) : 0 <= str_hash l < 2 ^ 32.
Proof. apply hash_range. lia. Qed.
Print Assumptions C94_range.
(** Strings that differ in exactly one byte have different hashes. *)
Theorem C94_one_byte (a b : list Z) (c d : Z) : 0 <= c < 256 -> 0 <= d < 256 -> c <> d ->
  str_hash (a ++ [c] ++ b) <> str_hash (a ++ [d] ++ b).
Proof. intros Hc Hd N E. exact (N (hash_one a c d b Hc Hd E)). Qed.
Print Assumptions C94_one_byte.
(** A common ending neither merges nor separates hashes. *)
Theorem C94_suffix (a b x : list Z) : str_hash (a ++ x) = str_hash (b ++ x) <-> str_hash a = str_hash b.
Proof. exact (hash_suffix a b x). Qed.
Print Assumptions C94_suffix.
(** Leading zero bytes do not count. *)
Theorem C94_zeros (n : nat) (l : list Z) : str_hash (repeat 0 n ++ l) = str_hash l.
Proof.
  induction n as [|n IH]; [reflexivity|]. rewrite <- IH. reflexivity.
Qed.
Print Assumptions C94_zeros.

(** Its value: the hash of a longer string is the old one, rotated left by 7
    bits, plus the last byte taken as a signed number, modulo 2^32; the empty
    string's is 0. *)
Theorem C94_value (l : list Z) (c : Z) : 0 <= c < 256 ->
  str_hash [] = 0 /\
  str_hash (l ++ [c]) = ((str_hash l mod 2 ^ 25) * 128 + str_hash l / 2 ^ 25 + (if 127 <? c then c - 256 else c)) mod 2 ^ 32.
Proof.
  intros _. split; [reflexivity|]. unfold str_hash. rewrite fold_left_app. cbn [fold_left].
  set (h := fold_left hash_step l 0). assert (H : 0 <= h < 2 ^ 32) by (apply hash_range; lia). clearbody h.
  unfold hash_step. rewrite (rot_add h H). change (2 ^ 7) with 128. unfold StrFmtModel.schar, u32, two32.
  change (2 ^ 32) with 4294967296. f_equal.
  destruct (Z.ltb_spec 127 c), (Z.ltb_spec c 128); lia.
Qed.
Print Assumptions C94_value.

(** ** Not vacuous *)
Definition sample : list fop :=
  [FFormat 0 (Some [49; 50; 51]); FStr (SAppendC 0 hello); FFormat 0 (Some [120]); FStr (SCopyOf 1 0); FFormat 1 (Some [104; 101; 108; 108; 111; 33]); FFormat 0 (Some [])].
Example format_history : good_env env0 /\ enough_memory env0 /\ callers text /\ NulBlk nul0 text /\
  fops_pre text (repeat [] 2) sample /\ fcareful env0 nul0 2 text (repeat [] 2) (start 2) sample /\
  exists h m m1, frun env0 nul0 2 (start 2) sample = Ok (h, [m; m1]) /\ mb_bytes h m = Ok [] /\ mb_bytes h m1 = Ok (map Some [104; 101; 108; 108; 111; 33]).
Proof.
  split; [exact env0_good|]. split; [exact env0_mem|]. split; [exact text_callers|]. split; [exact text_nul|].
  split.
  { unfold sample. cbn [fops_pre].
    split; [split; vm_compute; [lia|reflexivity]|].
    split; [cbn [fop_pre sop_pre]|].
    { split; [vm_compute; lia|]. split; [|vm_compute; split; [discriminate|reflexivity]].
      right. exists 1%nat, (mkblk (map Some [104; 101; 108; 108; 111; 0]) 8208 Literal), [], [104; 101; 108; 108; 111], [].
      split; [reflexivity|]. split; [reflexivity|]. split; [reflexivity|]. split; [|reflexivity].
      repeat (constructor; [discriminate|]). constructor. }
    split; [split; vm_compute; [lia|reflexivity]|].
    split; [cbn [fop_pre sop_pre]; split; [|split]; [vm_compute; lia|vm_compute; lia|discriminate]|].
    split; [split; vm_compute; [lia|reflexivity]|].
    split; [split; vm_compute; [lia|reflexivity]|]. exact I. }
  split.
  { unfold sample. repeat match goal with
    | |- fcareful ?e ?n ?f ?h ?ss ?s (?o :: ?t) =>
      change (fcareful_op h ss (snd s) o /\ forall s', fstep e n f s o = Ok s' -> fcareful e n f h (fspec_step h ss o) s' t); split;
      [try exact I; try (intros m Em; vm_compute in Em; injection Em as <-; split; [vm_compute; reflexivity|intros E; try discriminate E; vm_compute; reflexivity])
      |let s' := fresh "s" in let E := fresh "E" in intros s' E; vm_compute in E; injection E as <-]
    end. exact I. }
  eexists _, _, _. split; [vm_compute; reflexivity|]. split; vm_compute; reflexivity.
Qed.
Example empty_case : is_linked (str_nil nul0) = true. Proof. reflexivity. Qed.
Example error_case : exists h m, srun env0 nul0 (start 1) [SAssign 0 hello 5] = Ok (h, [m]) /\ str_vformat env0 nul0 5 h m None = UB.
Proof. eexists _, _. split; [vm_compute; reflexivity|]. lazy. reflexivity. Qed.
Example hash_case : str_hash [104; 101; 108; 108; 111] <> str_hash [104; 101; 109; 108; 111]. Proof. vm_compute. discriminate. Qed.
