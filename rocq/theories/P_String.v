(** * Properties C29 (strings), C36, C37, C38, C39, C57, C59 (strings). *)
From Verif Require Import Base UtilModel StoreModel VectorSpec VectorFacts MemModel MemSpec MemProofs MemRun MemFacts
  StringModel StringSpec StringProofs StringRun StringFindModel StringFindSpec StringFindProofs StringFacts.
From Coq Require Import ZArith ZifyBool ZifyNat.
Local Open Scope Z_scope.

(** ** C29 *)
(** compare is negative, zero, positive exactly as the byte sequences are
    lexicographically less, equal, greater; the operators agree with it. *)
Theorem C29_string_compare_partial (a b : list Z) : ssize a < 2 ^ 31 -> ssize b < 2 ^ 31 ->
  (str_compare a b < 0 <-> lex a b) /\ (str_compare a b = 0 <-> a = b) /\ (str_compare a b > 0 <-> lex b a) /\
  (str_eq a b = true <-> a = b) /\ (str_ne a b = true <-> a <> b) /\
  (str_lt a b = true <-> lex a b) /\ (str_gt a b = true <-> lex b a) /\
  (str_le a b = true <-> ~ lex b a) /\ (str_ge a b = true <-> ~ lex a b).
Proof.
  intros La Lb. pose proof (str_eq_spec a b) as Eq.
  assert (X : forall u v, lex u v -> u <> v) by (intros u v H E; rewrite E in H; exact (lex_irrefl v H)).
  assert (Y : forall u v, lex u v -> ~ lex v u) by (intros u v H K; exact (lex_irrefl u (lex_trans u v u H K))).
  assert (Ne : str_ne a b = true <-> a <> b).
  { unfold str_ne. destruct (str_eq a b); cbn [negb]; split; try discriminate; try reflexivity; intros H.
    - destruct (H (proj1 Eq eq_refl)).
    - intros E. apply Eq in E. discriminate. }
  unfold str_gt, str_le, str_ge, str_lt. rewrite !negb_true_iff, !Z.ltb_lt, !Z.ltb_ge.
  assert (K : forall c, (c < 0 /\ lex a b) \/ (c = 0 /\ a = b) \/ (0 < c /\ lex b a) ->
              (c < 0 <-> lex a b) /\ (c = 0 <-> a = b) /\ (c > 0 <-> lex b a) /\ (0 <= c <-> ~ lex a b)).
  { intros c [(C & L)|[(C & L)|(C & L)]].
    - pose proof (X _ _ L). pose proof (Y _ _ L). repeat split; intros; try lia; tauto.
    - rewrite L in *. pose proof (lex_irrefl b). repeat split; intros; try lia; tauto.
    - pose proof (X _ _ L). pose proof (Y _ _ L). repeat split; intros; try lia; try tauto; subst; tauto. }
  pose proof (K _ (str_compare_cases a b La Lb)) as (K1 & K2 & K3 & K4).
  assert (J : (str_compare b a < 0 <-> lex b a) /\ (0 <= str_compare b a <-> ~ lex b a)).
  { destruct (str_compare_cases b a Lb La) as [(C & L)|[(C & L)|(C & L)]].
    - repeat split; intros; try lia; tauto.
    - rewrite L in *. pose proof (lex_irrefl a). repeat split; intros; try lia; tauto.
    - pose proof (Y _ _ L). repeat split; intros; try lia; tauto. }
  tauto.
Qed.
Print Assumptions C29_string_compare_partial.
(** The lexicographic order is a strict total order. *)
Theorem C29_string_order (a b c : list Z) :
  ~ lex a a /\ (lex a b -> lex b c -> lex a c) /\ (lex a b \/ a = b \/ lex b a).
Proof. exact (conj (lex_irrefl a) (conj (lex_trans a b c) (lex_total a b))). Qed.
Print Assumptions C29_string_order.
(** Length differences from 2^31 on are taken for negative. *)
Theorem C29_string_compare_refuted (a : list Z) : 2 ^ 31 <= ssize a < 2 ^ 32 -> str_compare a [] < 0 /\ ~ lex a [].
Proof. exact (compare_huge a). Qed.
Print Assumptions C29_string_compare_refuted.

(** ** C36, C37: histories *)
(** Any history over [k] strings, starting with empty ones (which point to the
    literal ""), with the caller's memory [h0]: nothing undefined happens;
    every string has the specified size and bytes; c_str()[size()] is a zero
    that may be read, inside the allocation if there is one, unless the string
    was moved from.  Missing, and refuted below: shrink_to_fit; reserve on a
    string moved from; strings that are their own argument; insert (pos, s);
    erase starting beyond the end; moves of bytes that hit C21; results from
    2^31 bytes on; in-place writes to linked strings (C57). *)
Theorem C36_terminated_partial (e : env) (h0 : heap) (nul : ptr) (k : nat) (ops : list sop) :
  good_env e -> enough_memory e -> callers h0 -> NulBlk nul h0 ->
  sops_pre h0 (repeat [] k) ops -> careful e nul h0 (repeat [] k) (h0, repeat (str_nil nul) k) ops ->
  exists h ms, srun e nul (h0, repeat (str_nil nul) k) ops = Ok (h, ms) /\
    Forall (fun m => (mptr m <> None -> str_last h m = Ok [Some 0]) /\ (is_linked m = false -> msize m < mcap m)) ms.
Proof.
  intros He Hm Hc Hn P C. destruct (srun_correct e He Hm h0 Hc nul Hn k ops P C) as (h & ms & E & R & _).
  exists h, ms. split; [exact E|]. clear E. induction R as [|m s ms ss Hms R IH]; [constructor|]. constructor; [|exact IH].
  destruct Hms as (_ & Z0 & Cp). split; [|exact Cp]. intros N. destruct Z0 as [(N' & _)|Z0]; [destruct (N N')|exact Z0].
Qed.
Print Assumptions C36_terminated_partial.
(** C37 alone: the contents ([agrees]: equal, but for the bytes resize leaves unspecified). *)
Theorem C37_contents_partial (e : env) (h0 : heap) (nul : ptr) (k : nat) (ops : list sop) :
  good_env e -> enough_memory e -> callers h0 -> NulBlk nul h0 ->
  sops_pre h0 (repeat [] k) ops -> careful e nul h0 (repeat [] k) (h0, repeat (str_nil nul) k) ops ->
  exists h ms, srun e nul (h0, repeat (str_nil nul) k) ops = Ok (h, ms) /\
    Forall2 (fun m s => msize m = Z.of_nat (length s) /\ exists l, mb_bytes h m = Ok l /\ agrees s l) ms (sspec_run h0 (repeat [] k) ops).
Proof.
  intros He Hm Hc Hn P C. destruct (srun_correct e He Hm h0 Hc nul Hn k ops P C) as (h & ms & E & R & _).
  exists h, ms. split; [exact E|]. clear E. induction R as [|m s ms ss Hms R IH]; [constructor|]. constructor; [|exact IH].
  destruct Hms as ((Sz & L & _) & _). split; [exact Sz|exact L].
Qed.
Print Assumptions C37_contents_partial.

(** shrink_to_fit cuts off the zero: c_str()[size()] is outside the allocation. *)
Theorem C36_shrink_refuted : exists h m h' m',
  srun env0 nul0 (start 1) [SAssign 0 hello 5] = Ok (h, [m]) /\ shrink_to_fit env0 h m = Ok (h', m') /\
  mb_bytes h' m' = Ok (map Some [104; 101; 108; 108; 111]) /\ str_last h' m' = UB.
Proof. exact shrink_drops_nul. Qed.
Print Assumptions C36_shrink_refuted.
(** reserve on a string moved from leaves an owned string without the zero. *)
Theorem C36_reserve_refuted : exists h m m1,
  srun env0 nul0 (start 2) [SAssign 0 hello 5; SMoveOf 1 0; SReserve 0 10] = Ok (h, [m; m1]) /\
  msize m = 0 /\ str_last h m = Ok [None].
Proof. exact reserve_no_nul. Qed.
Print Assumptions C36_reserve_refuted.
(** c_str() of a string moved from is a null pointer. *)
Theorem C36_moved_refuted : exists h m m1,
  srun env0 nul0 (start 2) [SAssign 0 hello 5; SMoveOf 1 0] = Ok (h, [m; m1]) /\ mptr m = None /\ str_last h m = UB.
Proof. exact moved_null. Qed.
Print Assumptions C36_moved_refuted.

(** insert (0, t) with t = "hello" inserts t five times: 25 bytes. *)
Theorem C37_insert_string_refuted : exists h m t h' m',
  srun env0 nul0 (start 2) [SAssign 0 hello 5; SAssign 1 hello 5] = Ok (h, [m; t]) /\
  str_insert_str env0 nul0 h m 0 t = Ok (h', m') /\ msize m' = 30.
Proof. exact insert_repeats. Qed.
Print Assumptions C37_insert_string_refuted.
(** "hello": s.assign (s, 2, 3) gives l, zero, o. *)
Theorem C37_self_assign_refuted : exists h m,
  srun env0 nul0 (start 1) [SAssign 0 hello 5; SAssignSub 0 0 2 3] = Ok (h, [m]) /\
  mb_bytes h m = Ok (map Some [108; 0; 111]).
Proof. exact self_assign_sub. Qed.
Print Assumptions C37_self_assign_refuted.
(** s += s reads freed memory. *)
Theorem C37_self_append_refuted : srun env0 nul0 (start 1) [SAssign 0 hello 5; SAppendStr 0 0] = UB.
Proof. exact self_append. Qed.
Print Assumptions C37_self_append_refuted.
(** erase starting beyond the end is not cut off: it is undefined. *)
Theorem C37_erase_beyond_refuted : srun env0 nul0 (start 1) [SAssign 0 hello 5; SErase 0 7 2] = UB.
Proof. exact erase_beyond. Qed.
Print Assumptions C37_erase_beyond_refuted.
(** Four bytes inserted at 5 of 14: the wrong bytes are moved (C21). *)
Theorem C37_insert_moves_refuted : exists h m l,
  srun env0 nul0 (start 1) [SAssign 0 (Some (3%nat, 0)) 14; SInsert 0 5 hello 4 1] = Ok (h, [m]) /\ mb_bytes h m = Ok l /\
  ~ agrees (get (sspec_run text [[]] [SAssign 0 (Some (3%nat, 0)) 14; SInsert 0 5 hello 4 1]) 0) l.
Proof. exact insert_moves. Qed.
Print Assumptions C37_insert_moves_refuted.

(** substr (o, n) with the largest size_t as the length (npos of the standard
    library) and o inside the string: o + n wraps to o - 1, the length -1 is
    taken as allocated, and the terminator is written through a null pointer. *)
Theorem C37_npos_refuted (e : env) (nul : ptr) (h : heap) (s : mb) (o : Z) : 1 <= o <= msize s -> msize s < 2 ^ 64 ->
  str_substr e nul h s o (2 ^ 64 - 1) = UB.
Proof.
  intros B S64. unfold str_substr, str_assign_sub. cbv zeta.
  replace (u64 (o + (2 ^ 64 - 1))) with (u64 (o - 1 + 1 * 2 ^ 64)) by (f_equal; lia).
  assert (W : forall x y, 0 <= x < 2 ^ 64 -> u64 (x + y * 2 ^ 64) = x)
    by (intros x y X; unfold u64; change two64 with (2 ^ 64); rewrite Z.mod_add by lia; apply Z.mod_small; exact X).
  rewrite W by lia. unfold clamp. rewrite (Z.min_l o) by lia. rewrite (Z.min_l (o - 1)) by lia.
    replace (u64 (o - 1 - o)) with (2 ^ 64 - 1)
      by (replace (o - 1 - o) with (2 ^ 64 - 1 + (-1) * 2 ^ 64) by lia; rewrite W; lia).
    unfold str_assign, str_resize. change (mcap mb_nil) with 0.
    replace ((2 ^ 64 - 1 =? 0) && (0 =? 0))%bool with false by reflexivity.
    unfold resize. change (mcap mb_nil) with 0.
    replace (0 <? u64 (2 ^ 64 - 1 + 1)) with false by reflexivity.
    reflexivity.
Qed.
Print Assumptions C37_npos_refuted.

(** ** C38: forward searching *)
Theorem C38_find_char (s : list Z) (c pos : Z) : 0 <= pos ->
  exists r, str_find_char s c pos = Ok r /\ is_first (byte_at s c) pos r.
Proof. intros H. destruct (find_char_ok s c pos H) as (r & E & R & _). exact (ex_intro _ r (conj E R)). Qed.
Print Assumptions C38_find_char.
Theorem C38_find_partial (s p : list Z) (pos : Z) : 0 <= pos < 2 ^ 63 -> ssize s < 2 ^ 31 -> p <> [] ->
  exists r, str_find s p pos = Ok r /\ is_first (occurs s p) pos r.
Proof. exact (str_find_ok s p pos). Qed.
Print Assumptions C38_find_partial.
Theorem C38_find_first_of_partial (s set : list Z) (pos : Z) : 0 <= pos -> ssize set <= npos ->
  exists r, find_first_of s set pos = Ok r /\ is_first (one_of s set) pos r.
Proof. exact (first_any_ok s set true pos). Qed.
Print Assumptions C38_find_first_of_partial.
Theorem C38_find_first_not_of_partial (s set : list Z) (pos : Z) : 0 <= pos -> ssize set <= npos ->
  exists r, find_first_not_of s set pos = Ok r /\ is_first (none_of s set) pos r.
Proof. exact (first_any_ok s set false pos). Qed.
Print Assumptions C38_find_first_not_of_partial.
(** The overloads for one character. *)
Lemma one_char (s : list Z) (c i : Z) : one_of s [c] i <-> byte_at s c i.
Proof.
  split; [intros (d & B & [->|[]]); exact B|]. intros B. exists c. split; [exact B|now left].
Qed.
Lemma none_char (s : list Z) (c i : Z) : none_of s [c] i <-> exists d, byte_at s d i /\ d <> c.
Proof.
  split; intros (d & B & N); exists d; (split; [exact B|]); [intros ->; apply N; now left|intros [Q|[]]; congruence].
Qed.
Lemma is_first_ext (P Q : Z -> Prop) pos r : (forall i, P i <-> Q i) -> is_first P pos r -> is_first Q pos r.
Proof.
  intros H [(B & R & L)|(E & N)]; [left; split; [exact B|]; split; [now apply H|]; intros j J; rewrite <- H; now apply L|].
  right. split; [exact E|]. intros j J. rewrite <- H. now apply N.
Qed.
Lemma is_last_ext (P Q : Z -> Prop) pos r : (forall i, P i <-> Q i) -> is_last P pos r -> is_last Q pos r.
Proof.
  intros H [(B & R & L)|(E & N)]; [left; split; [exact B|]; split; [now apply H|]; intros j J; rewrite <- H; now apply L|].
  right. split; [exact E|]. intros j J. rewrite <- H. now apply N.
Qed.
Theorem C38_char_overloads (s : list Z) (c pos : Z) : 0 <= pos ->
  exists r q, find_first_of_c s c pos = Ok r /\ is_first (byte_at s c) pos r /\
    find_first_not_of_c s c pos = Ok q /\ is_first (fun i => exists d, byte_at s d i /\ d <> c) pos q.
Proof.
  intros H. destruct (C38_find_first_of_partial s [c] pos H ltac:(vm_compute; discriminate)) as (r & E & R).
  destruct (C38_find_first_not_of_partial s [c] pos H ltac:(vm_compute; discriminate)) as (q & E2 & R2).
  exists r, q. split; [exact E|]. split; [exact (is_first_ext _ _ _ _ (one_char s c) R)|].
  split; [exact E2|]. exact (is_first_ext _ _ _ _ (none_char s c) R2).
Qed.
Print Assumptions C38_char_overloads.
(** The overloads for a pointer and a length. *)
Theorem C38_counted_partial (s p more : list Z) (pos : Z) : 0 <= pos < 2 ^ 63 -> ssize s < 2 ^ 31 -> p <> [] -> ssize p <= npos ->
  exists r r1 r2, find_n s (p ++ more) pos (length p) = Ok r /\ is_first (occurs s p) pos r /\
    find_first_of_n s (p ++ more) pos (length p) = Ok r1 /\ is_first (one_of s p) pos r1 /\
    find_first_not_of_n s (p ++ more) pos (length p) = Ok r2 /\ is_first (none_of s p) pos r2.
Proof.
  intros H Hs Hp Hn. assert (L : linked (p ++ more) (length p) = Ok p).
  { unfold linked. rewrite app_length. destruct (Nat.leb_spec (length p) (length p + length more)); [|lia].
    now rewrite firstn_app, Nat.sub_diag, firstn_all, firstn_O, app_nil_r. }
  unfold find_n, find_first_of_n, find_first_not_of_n. rewrite L, !bind_Ok.
  destruct (C38_find_partial s p pos H Hs Hp) as (r & E & R).
  destruct (C38_find_first_of_partial s p pos (proj1 H) Hn) as (r1 & E1 & R1).
  destruct (C38_find_first_not_of_partial s p pos (proj1 H) Hn) as (r2 & E2 & R2).
  exists r, r1, r2. auto 8.
Qed.
Print Assumptions C38_counted_partial.
Example C38_counted_example : find_n [104; 105; 104; 111] [104; 111; 33] 0 2 = Ok 2. Proof. reflexivity. Qed.
(** The empty pattern occurs everywhere, but find returns npos. *)
Theorem C38_find_empty_refuted (s : list Z) : str_find s [] 0 = Ok npos /\ occurs s [] 0.
Proof. exact (conj eq_refl (conj (Z.le_refl 0) (ex_intro _ [] (ex_intro _ s (conj eq_refl eq_refl))))). Qed.
Print Assumptions C38_find_empty_refuted.

(** ** C39: backward searching *)
Theorem C39_rfind_char_partial (s : list Z) (c pos : Z) : s <> [] -> 0 <= pos < 2 ^ 64 -> ssize s < 2 ^ 31 ->
  exists r, str_rfind_char s c pos = Ok r /\ is_last (byte_at s c) pos r.
Proof. exact (rfind_char_ok s c pos). Qed.
Print Assumptions C39_rfind_char_partial.
Theorem C39_find_last_of_partial (s set : list Z) (pos : Z) : s <> [] -> 0 <= pos < 2 ^ 64 -> ssize s < 2 ^ 31 -> ssize set <= npos ->
  exists r, find_last_of s set pos = Ok r /\ is_last (one_of s set) pos r.
Proof. exact (last_any_ok s set true pos). Qed.
Print Assumptions C39_find_last_of_partial.
Theorem C39_find_last_not_of_partial (s set : list Z) (pos : Z) : s <> [] -> 0 <= pos < 2 ^ 64 -> ssize s < 2 ^ 31 -> ssize set <= npos ->
  exists r, find_last_not_of s set pos = Ok r /\ is_last (none_of s set) pos r.
Proof. exact (last_any_ok s set false pos). Qed.
Print Assumptions C39_find_last_not_of_partial.
(** The overloads for one character, and for a pointer and a length. *)
Theorem C39_char_overloads_partial (s : list Z) (c pos : Z) : s <> [] -> 0 <= pos < 2 ^ 64 -> ssize s < 2 ^ 31 ->
  exists r q, find_last_of_c s c pos = Ok r /\ is_last (byte_at s c) pos r /\
    find_last_not_of_c s c pos = Ok q /\ is_last (fun i => exists d, byte_at s d i /\ d <> c) pos q.
Proof.
  intros Hn H Hs. destruct (C39_find_last_of_partial s [c] pos Hn H Hs ltac:(vm_compute; discriminate)) as (r & E & R).
  destruct (C39_find_last_not_of_partial s [c] pos Hn H Hs ltac:(vm_compute; discriminate)) as (q & E2 & R2).
  exists r, q. split; [exact E|]. split; [exact (is_last_ext _ _ _ _ (one_char s c) R)|].
  split; [exact E2|]. exact (is_last_ext _ _ _ _ (none_char s c) R2).
Qed.
Print Assumptions C39_char_overloads_partial.
Theorem C39_counted_partial (s p more : list Z) (pos : Z) : s <> [] -> 0 <= pos < 2 ^ 64 -> ssize s < 2 ^ 31 -> ssize p <= npos ->
  exists r q, find_last_of_n s (p ++ more) pos (length p) = Ok r /\ is_last (one_of s p) pos r /\
    find_last_not_of_n s (p ++ more) pos (length p) = Ok q /\ is_last (none_of s p) pos q.
Proof.
  intros Hn H Hs Hp. assert (L : linked (p ++ more) (length p) = Ok p).
  { unfold linked. rewrite app_length. destruct (Nat.leb_spec (length p) (length p + length more)); [|lia].
    now rewrite firstn_app, Nat.sub_diag, firstn_all, firstn_O, app_nil_r. }
  unfold find_last_of_n, find_last_not_of_n. rewrite L, !bind_Ok.
  destruct (C39_find_last_of_partial s p pos Hn H Hs Hp) as (r & E & R).
  destruct (C39_find_last_not_of_partial s p pos Hn H Hs Hp) as (q & E2 & R2). exists r, q. auto.
Qed.
Print Assumptions C39_counted_partial.
(** What rfind of a string does find: the last occurrence that ends at or
    before pos and does not start at 0 or 1. *)
Theorem C39_rfind_partial (s p : list Z) (pos : Z) : p <> [] -> 0 <= pos ->
  exists r, str_rfind s p pos = Ok r /\ is_last (fun i => occurs s p i /\ 2 <= i) (Z.min pos (ssize s) - ssize p) r.
Proof. exact (str_rfind_ok s p pos). Qed.
Print Assumptions C39_rfind_partial.
(** "abc" is not found in "abc". *)
Theorem C39_rfind_refuted : str_rfind [97; 98; 99] [97; 98; 99] npos = Ok npos /\ occurs [97; 98; 99] [97; 98; 99] 0.
Proof. split; [reflexivity|]. split; [lia|]. exists [], []. split; reflexivity. Qed.
Print Assumptions C39_rfind_refuted.
(** "xxabc" has "abc" at 2, at or before 4, but the part after 4 is not looked at. *)
Theorem C39_rfind_pos_refuted : str_rfind [120; 120; 97; 98; 99] [97; 98; 99] 4 = Ok npos /\ occurs [120; 120; 97; 98; 99] [97; 98; 99] 2.
Proof. split; [reflexivity|]. split; [lia|]. exists [120; 120], []. split; reflexivity. Qed.
Print Assumptions C39_rfind_pos_refuted.
(** The empty pattern is found beyond the end. *)
Theorem C39_rfind_empty_refuted (s : list Z) : s <> [] -> ssize s < npos ->
  str_rfind s [] npos = Ok (ssize s + 1) /\ ~ occurs s [] (ssize s + 1).
Proof.
  intros N H. split; [rewrite (str_rfind_empty s npos eq_refl N); f_equal; lia|].
  intros O. pose proof (occurs_range _ _ _ O) as R. change (ssize []) with 0 in R. lia.
Qed.
Print Assumptions C39_rfind_empty_refuted.
(** On an empty string, with the default start, memory 2 GB away is read. *)
Theorem C39_empty_string_refuted (c : Z) (set : list Z) :
  str_rfind_char [] c npos = UB /\ find_last_of [] set npos = UB /\ find_last_not_of [] set npos = UB.
Proof. exact (conj (rfind_empty c) (conj (last_empty set true) (last_empty set false))). Qed.
Print Assumptions C39_empty_string_refuted.

(** ** C57: linked memory *)
(** The caller's memory is as it was, if strings linked to it are not
    overwritten in place. *)
Theorem C57_linked_memory_partial (e : env) (h0 : heap) (nul : ptr) (k : nat) (ops : list sop) :
  good_env e -> enough_memory e -> callers h0 -> NulBlk nul h0 ->
  sops_pre h0 (repeat [] k) ops -> careful e nul h0 (repeat [] k) (h0, repeat (str_nil nul) k) ops ->
  exists h ms, srun e nul (h0, repeat (str_nil nul) k) ops = Ok (h, ms) /\ firstn (length h0) h = h0.
Proof.
  intros He Hm Hc Hn P C. destruct (srun_correct e He Hm h0 Hc nul Hn k ops P C) as (h & ms & E & _ & F & _).
  exact (ex_intro _ h (ex_intro _ ms (conj E F))).
Qed.
Print Assumptions C57_linked_memory_partial.
(** string s (array): s.replace (1, 2, 2, 'x') changes the array. *)
Theorem C57_replace_refuted : exists h m,
  srun env0 nul0 (start 1) [SOfC 0 abcdef; SReplaceFill 0 1 2 2 120] = Ok (h, [m]) /\
  load_n text abcdef 7 = Ok (map Some [97; 98; 99; 100; 101; 102; 0]) /\
  load_n h abcdef 7 = Ok (map Some [97; 120; 120; 100; 101; 102; 0]).
Proof. exact replace_in_place. Qed.
Print Assumptions C57_replace_refuted.
Theorem C57_at_refuted : exists h m,
  srun env0 nul0 (start 1) [SOfC 0 abcdef; SSet 0 0 120] = Ok (h, [m]) /\
  load_n h abcdef 7 = Ok (map Some [120; 98; 99; 100; 101; 102; 0]).
Proof. exact at_in_place. Qed.
Print Assumptions C57_at_refuted.
(** With a literal, that is a write to read-only memory. *)
Theorem C57_literal_refuted : srun env0 nul0 (start 1) [SOfC 0 hello; SReplaceFill 0 1 2 2 120] = UB.
Proof. exact replace_literal. Qed.
Print Assumptions C57_literal_refuted.

(** ** C59 for strings: whatever is allocated is held by one of the strings. *)
Theorem C59_string_no_leak_partial (e : env) (h0 : heap) (nul : ptr) (k : nat) (ops : list sop) :
  good_env e -> enough_memory e -> callers h0 -> NulBlk nul h0 ->
  sops_pre h0 (repeat [] k) ops -> careful e nul h0 (repeat [] k) (h0, repeat (str_nil nul) k) ops ->
  exists h ms, srun e nul (h0, repeat (str_nil nul) k) ops = Ok (h, ms) /\
    forall b x, nth_error h b = Some x -> bkind x = Owned -> exists m o, In m ms /\ is_linked m = false /\ mptr m = Some (b, o).
Proof.
  intros He Hm Hc Hn P C. destruct (srun_correct e He Hm h0 Hc nul Hn k ops P C) as (h & ms & E & _ & _ & F).
  exact (ex_intro _ h (ex_intro _ ms (conj E F))).
Qed.
Print Assumptions C59_string_no_leak_partial.

(** ** Non-vacuity *)
(** A history with all 29 operations meets the hypotheses. *)
Example string_history : good_env env0 /\ enough_memory env0 /\ callers text /\ NulBlk nul0 text /\
  sops_pre text (repeat [] 4) sops1 /\ careful env0 nul0 text (repeat [] 4) (start 4) sops1.
Proof. exact (conj env0_good (conj env0_mem (conj text_callers (conj text_nul (conj sops1_pre sops1_careful))))). Qed.
Example compare_case : str_compare [97; 98] [97; 98; 0] < 0 /\ lex [97; 98] [97; 98; 0].
Proof. split; [reflexivity|]. apply lex_eq, lex_eq, lex_nil. Qed.
Example find_case : str_find [97; 98; 97; 98; 99] [97; 98; 99] 0 = Ok 2 /\ find_last_of [97; 98; 99] [98; 97] npos = Ok 1
  /\ str_rfind [120; 120; 97; 98; 120] [97; 98] npos = Ok 2.
Proof. repeat split; vm_compute; reflexivity. Qed.
