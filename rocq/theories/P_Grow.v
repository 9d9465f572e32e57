(** * Properties C221 and C222: room reserved in advance, growth. *)
From Coq Require Import ZArith Lia List.
From Verif Require Import Base UtilModel UtilProofs StoreModel VectorSpec VectorModel VectorProofs VectorFacts MemModel MemSpec MemProofs MemRun MemFacts StringModel StringSpec StringProofs StringRun StringFacts GrowModel GrowSpec GrowProofs.
Local Open Scope Z_scope.

(** A memory block that has room for everything a program asks of it keeps
    its storage: data() and capacity() stay what they are, so pointers and
    iterators into it stay valid.  [ops1] is the history before. *)
Theorem C221_blocks (e : env) (h0 : heap) (k : nat) (ops1 ops2 : list mop) (i : nat) h ms m :
  good_env e -> enough_memory e -> callers h0 ->
  mops_pre h0 (repeat [] k) ops1 -> mops_pre h0 (mspec_run h0 (repeat [] k) ops1) ops2 ->
  mrun e (h0, repeat mb_nil k) ops1 = Ok (h, ms) -> nth_error ms i = Some m -> 0 < mcap m ->
  m_within h0 (mcap m) i (mspec_run h0 (repeat [] k) ops1) ops2 ->
  exists h' ms' m', mrun e (h, ms) ops2 = Ok (h', ms') /\ nth_error ms' i = Some m' /\
    mptr m' = mptr m /\ mcap m' = mcap m /\ owns_storage h' m' /\
    Forall2 (mresult h') ms' (mspec_run h0 (mspec_run h0 (repeat [] k) ops1) ops2).
Proof.
  intros He Hm Hc P1 P2 E Em Hp W.
  destruct (mrun_sinv e He Hm h0 Hc ops1 _ _ _ (sinv_init e h0 k) P1) as (h1 & ms1 & E1 & I1 & _).
  rewrite E in E1. injection E1 as <- <-.
  destruct (mrun_kept e He Hm h0 Hc ops2 h ms _ i m I1 P2 Em Hp W) as (h2 & ms2 & m2 & E2 & I2 & Em2 & (K1 & K2)).
  exists h2, ms2, m2. split; [exact E2|]. split; [exact Em2|]. split; [exact K1|]. split; [exact K2|].
  pose proof (sinv_result e h0 _ _ _ I2) as R. split; [|exact R].
  destruct (s_ok _ _ _ _ _ I2 i m2 Em2) as (l & Il & A). exact (proj2 (proj2 (minv_result e h2 m2 _ l Il A))).
Qed.
Print Assumptions C221_blocks.

(** The same for strings and all their editing functions. *)
Theorem C221_strings (e : env) (nul : ptr) (h0 : heap) (k : nat) (ops1 ops2 : list sop) (i : nat) h ms m :
  good_env e -> enough_memory e -> callers h0 -> NulBlk nul h0 ->
  sops_pre h0 (repeat [] k) ops1 -> sops_pre h0 (sspec_run h0 (repeat [] k) ops1) ops2 ->
  careful e nul h0 (repeat [] k) (h0, repeat (str_nil nul) k) ops1 ->
  srun e nul (h0, repeat (str_nil nul) k) ops1 = Ok (h, ms) ->
  careful e nul h0 (sspec_run h0 (repeat [] k) ops1) (h, ms) ops2 ->
  nth_error ms i = Some m -> 0 < mcap m ->
  s_within h0 (mcap m) i (sspec_run h0 (repeat [] k) ops1) ops2 ->
  exists h' ms' m', srun e nul (h, ms) ops2 = Ok (h', ms') /\ nth_error ms' i = Some m' /\
    mptr m' = mptr m /\ mcap m' = mcap m /\
    Forall2 (sresult h') ms' (sspec_run h0 (sspec_run h0 (repeat [] k) ops1) ops2).
Proof.
  intros He Hm Hc Hn P1 P2 C1 E C2 Em Hp W.
  destruct (srun_tinv e He Hm h0 Hc nul Hn ops1 _ _ _ (tinv_init e h0 nul Hn k) P1 C1) as (h1 & ms1 & E1 & T1 & _).
  rewrite E in E1. injection E1 as <- <-.
  destruct (srun_kept e nul He Hm h0 Hc Hn ops2 h ms _ i m T1 P2 C2 Em Hp W) as (h2 & ms2 & m2 & E2 & T2 & Em2 & (K1 & K2)).
  exists h2, ms2, m2. split; [exact E2|]. split; [exact Em2|]. split; [exact K1|]. split; [exact K2|]. eapply tinv_result; eauto.
Qed.
Print Assumptions C221_strings.

(** A vector's capacity() is the same while it has room, whatever is done. *)
Theorem C221_vectors {T} (e : env) (es : Z) (dflt : T) (ops1 ops2 : list (vop T)) (v : vec T) :
  0 < es -> good_env e -> enough_memory e ->
  ops_pre es dflt [] ops1 -> ops_moves_ok es dflt [] ops1 = true -> vrun e es dflt vec_nil ops1 = Ok v ->
  ops_pre es dflt (seq_run dflt [] ops1) ops2 -> ops_moves_ok es dflt (seq_run dflt [] ops1) ops2 = true ->
  v_within dflt es (vcap v) (seq_run dflt [] ops1) ops2 ->
  exists v', vrun e es dflt v ops2 = Ok v' /\ contents v' = Ok (seq_run dflt (seq_run dflt [] ops1) ops2) /\ vcap v' = vcap v.
Proof.
  intros Hes He Hm P1 M1 E P2 M2 W.
  destruct (vrun_ok e es dflt Hes He Hm ops1 vec_nil [] (Vinv_nil es) P1 M1) as (v1 & E1 & I1).
  rewrite E in E1. injection E1 as <-.
  destruct (vrun_kept e es dflt Hes He Hm ops2 v _ I1 P2 M2 W) as (v2 & E2 & I2 & K). exists v2.
  split; [exact E2|]. split; [exact (contents_ok es Hes v2 _ I2)|exact K].
Qed.
Print Assumptions C221_vectors.

(** push_back of n elements into an empty vector: at most 1 + log2 (bytes)
    calls of realloc, which ask for less than four times the bytes together. *)
Theorem C221_growth (e : env) (es : Z) (h : heap) (xs : list (list (option Z))) :
  enough_memory e -> 0 < es -> xs <> [] -> Forall (fun x => Z.of_nat (length x) = es) xs ->
  es * Z.of_nat (length xs) <= 2 ^ 31 ->
  exists h' m', hv_pushes e es h mb_nil xs = Ok (h', m') /\ mb_bytes h' m' = Ok (concat xs) /\
    Z.of_nat (length (new_blocks h h')) <= 1 + Z.log2 (es * Z.of_nat (length xs)) /\
    allocated (new_blocks h h') < 4 * (es * Z.of_nat (length xs)).
Proof.
  intros Hm Hes Nx F Hb.
  assert (I0 : Minv e h mb_nil []) by (split; [split; [reflexivity|cbn; lia]|left; split; [reflexivity|left; auto]]).
  destruct (hv_pushes_ok e Hm es xs h mb_nil [] [] h Hes F I0) as (h' & m' & ks & E & I & Lh & G).
  { cbn [length]. lia. }
  { now rewrite app_nil_r. }
  { left. auto. }
  exists h', m'. split; [exact E|]. cbn [app] in I. split; [unfold mb_bytes; eapply Minv_load; eauto|].
  pose proof (new_lens h h' ks Lh) as NL. rewrite allocated_lens, NL.
  assert (Ln : length (new_blocks h h') = length ks) by (rewrite <- NL; unfold lens; now rewrite map_length).
  rewrite Ln. cbn [length] in G. rewrite Z.add_0_l in G.
  assert (0 < es * Z.of_nat (length xs)) by (destruct xs; [congruence|cbn [length]; nia]).
  destruct G as [(Z0 & ->)|(k & A & B & C & D & Q)].
  - cbn [length total fold_right]. pose proof (Z.log2_nonneg (es * Z.of_nat (length xs))). split; [change (Z.of_nat 0) with 0|]; lia.
  - split; [|lia]. assert (k <= 1 + Z.log2 (es * Z.of_nat (length xs))); [|lia].
    replace k with (Z.log2 (2 ^ k)) by (apply Z.log2_pow2; lia).
    rewrite B in Q. etransitivity; [apply Z.log2_le_mono; exact Q|]. rewrite Z.log2_double by lia. lia.
Qed.
Print Assumptions C221_growth.

(** Character by character a string calls realloc every time: n characters
    cost n blocks and n (n + 3) / 2 bytes. *)
Theorem C222_characters_refuted (e : env) (nul : ptr) (h : heap) (cs : list Z) :
  good_env e -> enough_memory e -> callers h -> NulBlk nul h -> Z.of_nat (length cs) + 1 <= 2 ^ 31 ->
  exists h' m', str_pushes e nul h (str_nil nul) cs = Ok (h', m') /\ mb_bytes h' m' = Ok (map Some cs) /\
    length (new_blocks h h') = length cs /\
    2 * allocated (new_blocks h h') = Z.of_nat (length cs) * (Z.of_nat (length cs) + 3).
Proof.
  intros He Hm Hc Hn Hb. pose proof (tinv_init e h nul Hn 1) as T.
  destruct (s_ok _ _ _ _ _ (t_sinv _ _ _ _ _ T) 0%nat (str_nil nul) eq_refl) as (l & I & A). inversion A; subst l.
  destruct (str_pushes_ok e Hm nul h cs Hc Hn h (str_nil nul) [] I Hn) as (h' & m' & E & I' & Lh); auto.
  { cbn [str_nil mcap length]. lia. }
  exists h', m'. split; [exact E|]. cbn [app length] in *. split; [unfold mb_bytes; eapply Minv_load; eauto|].
  pose proof (new_lens h h' _ Lh) as NL. rewrite allocated_lens, NL. split.
  - transitivity (length (lens (new_blocks h h'))); [unfold lens; now rewrite map_length|]. rewrite NL. apply steps_length.
  - rewrite total_steps. lia.
Qed.
Print Assumptions C222_characters_refuted.
(** So the claim of a fixed number of bytes per character is false. *)
Theorem C222_linear_refuted (e : env) (nul : ptr) (h : heap) (c : Z) :
  good_env e -> enough_memory e -> callers h -> NulBlk nul h -> 0 <= c < 2 ^ 29 ->
  exists cs h' m', str_pushes e nul h (str_nil nul) cs = Ok (h', m') /\
    c * Z.of_nat (length cs) < allocated (new_blocks h h').
Proof.
  intros He Hm Hc Hn Hb. exists (repeat 120 (Z.to_nat (2 * c + 1))).
  destruct (C222_characters_refuted e nul h (repeat 120 (Z.to_nat (2 * c + 1))) He Hm Hc Hn) as (h' & m' & E & _ & _ & A).
  { rewrite repeat_length. lia. }
  exists h', m'. split; [exact E|]. rewrite repeat_length in *. rewrite Z2Nat.id in * by lia. nia.
Qed.
Print Assumptions C222_linear_refuted.
(** What holds: after reserve (n) the next n characters allocate nothing and data() stays. *)
Theorem C222_reserved_partial (e : env) (nul : ptr) (h : heap) (n : Z) (cs : list Z) :
  good_env e -> enough_memory e -> callers h -> NulBlk nul h -> 0 < n < 2 ^ 31 -> Z.of_nat (length cs) <= n ->
  exists h1 m1 h' m', reserve e 1 h (str_nil nul) n false = Ok (h1, m1) /\ str_pushes e nul h1 m1 cs = Ok (h', m') /\
    mb_bytes h' m' = Ok (map Some cs) /\ mptr m' = mptr m1 /\ length h' = length h1.
Proof.
  intros He Hm Hc Hn Hb Hl. pose proof (tinv_init e h nul Hn 1) as T.
  destruct (s_ok _ _ _ _ _ (t_sinv _ _ _ _ _ T) 0%nat (str_nil nul) eq_refl) as (l & I & A). inversion A; subst l.
  destruct (reserve_ok e Hm 1 h (str_nil nul) [] n false ltac:(lia) ltac:(cbn [length]; lia) ltac:(lia) I) as (h1 & m1 & E1 & St & I1 & Cp).
  assert (Cs : mcap m1 <= 2 ^ 31).
  { assert (Q : mcap m1 = next_pow2 (n + 1)).
    { apply (lens_reserve e 1 h (str_nil nul) n false h1 m1); [lia|lia|lia|cbn [str_nil mcap]; lia|cbn [str_nil mcap]; lia|exact E1]. }
    rewrite Q.
    rewrite next_pow2_val by lia. change (2 ^ 31) with (2 ^ (1 + 30)). apply Z.pow_le_mono_r; [lia|].
    assert (Z.log2 (n + 1 - 1) < 31); [|lia]. apply Z.log2_lt_pow2; lia. }
  assert (Fr : forall b, (b < length h)%nat -> nth_error h1 b = nth_error h b).
  { intros b Hlt. destruct St as (_ & F & _). apply F; [exact Hlt|]. intros Eo. cbn in Eo. discriminate. }
  assert (B1 : NulBlk nul h1).
  { destruct Hn as (b & base & En & N). exists b, base. split; [exact En|]. rewrite Fr; [exact N|apply nth_error_Some; congruence]. }
  destruct (str_pushes_room e Hm nul h cs Hc Hn h1 m1 [] I1 B1) as (h' & m' & E & I' & (K & _) & L); auto.
  { destruct St as (G & _). exact G. }
  { cbn [length]. lia. }
  { lia. }
  exists h1, m1, h', m'. split; [exact E1|]. split; [exact E|]. split; [unfold mb_bytes; eapply Minv_load; eauto|]. split; [exact K|].
  apply (f_equal (@length Z)) in L. unfold lens in L. now rewrite !map_length in L.
Qed.
Print Assumptions C222_reserved_partial.

(** ** The hypotheses can be met *)
Definition grow1 : list sop := [SReserve 0 20].
Definition grow2 : list sop := [SAssignC 0 hello; SPushBack 0 33; SInsertFill 0 5 5 45; SAppendFill 0 9 46; SErase 0 0 4; SResize 0 12].
Example grow_strings : sops_pre text (repeat [] 1) grow1 /\ careful env0 nul0 text (repeat [] 1) (start 1) grow1 /\
  exists h m, srun env0 nul0 (start 1) grow1 = Ok (h, [m]) /\ mcap m = 32 /\
    sops_pre text (sspec_run text (repeat [] 1) grow1) grow2 /\ careful env0 nul0 text (sspec_run text (repeat [] 1) grow1) (h, [m]) grow2 /\
    s_within text (mcap m) 0 (sspec_run text (repeat [] 1) grow1) grow2.
Proof.
  split; [unfold grow1; repeat (pre_step; [solve [pre_goal]|idtac]); exact Logic.I|].
  split; [split; [intros m E; vm_compute in E; injection E as <-; vm_compute; discriminate|intros; exact Logic.I]|].
  eexists. eexists. split; [vm_compute; reflexivity|]. split; [reflexivity|].
  split; [unfold grow2; match goal with |- sops_pre _ ?s _ => let v := eval vm_compute in s in change s with v end;
          repeat (pre_step; [solve [pre_goal]|idtac]); exact Logic.I|].
  split.
  - unfold grow2. do 6 (split; [exact Logic.I|intros ? _]). exact Logic.I.
  - unfold grow2.
    repeat match goal with |- s_within _ _ _ _ (_ :: _) => split; [cbn; tauto|]; split; [intros n E; discriminate E|]; split; [vm_compute; reflexivity|] end.
    exact Logic.I.
Qed.
Ltac vpre := repeat match goal with |- ops_pre _ _ _ (_ :: _) => split; [split; [vm_compute; discriminate|first [exact Logic.I|vm_compute; congruence|vm_compute; lia]]|] end; exact Logic.I.
Definition grow3 : list (vop Z) := [OpReserve 4%nat true; OpPushBack 7].
Definition grow4 : list (vop Z) := [OpPushBack 8; OpInsert 0%nat 9; OpErase 1%nat 1%nat; OpAssignN 4%nat 3; OpPopBack; OpResize 4%nat].
Example grow_vectors : ops_pre 4 0 [] grow3 /\ ops_moves_ok 4 0 [] grow3 = true /\
  exists v, vrun env0 4 0 vec_nil grow3 = Ok v /\ vcap v = 16 /\ ops_pre 4 0 [7] grow4 /\ ops_moves_ok 4 0 [7] grow4 = true /\
    v_within 0 4 (vcap v) [7] grow4.
Proof.
  unfold grow3, grow4. split; [vpre|]. split; [vm_compute; reflexivity|].
  eexists. split; [vm_compute; reflexivity|]. split; [vm_compute; reflexivity|].
  unfold grow3, grow4. split; [vpre|]. split; [vm_compute; reflexivity|].
  repeat match goal with |- v_within _ _ _ _ (_ :: _) => split; [discriminate|]; split; [discriminate|]; split; [intros ? ? E; discriminate E|]; split; [vm_compute; discriminate|] end.
  exact Logic.I.
Qed.
Definition grow5 : list mop := [MReserve 0 16 true; MAssign 0 (Some (0%nat, 0)) 4].
Definition grow6 : list mop := [MResize 0 12 false; MErase 0 0 8; MAssign 0 (Some (0%nat, 0)) 9; MClear 0].
Example grow_blocks : mops_pre nine [[]] grow5 /\
  exists h m, mrun env0 (nine, [mb_nil]) grow5 = Ok (h, [m]) /\ mcap m = 16 /\ mops_pre nine (mspec_run nine [[]] grow5) grow6 /\
    m_within nine (mcap m) 0 (mspec_run nine [[]] grow5) grow6.
Proof.
  split.
  { unfold grow5. cbn [mops_pre mop_pre].
    repeat match goal with |- _ /\ _ => split end; try exact Logic.I; try (vm_compute; lia);
    try (vm_compute; intuition congruence); try (right; unfold can_read; eexists; vm_compute; reflexivity);
    try (unfold can_read; eexists; vm_compute; reflexivity). }
  eexists. eexists. split; [vm_compute; reflexivity|]. split; [vm_compute; reflexivity|]. split.
  { unfold grow6. cbn [mops_pre mop_pre].
    repeat match goal with |- _ /\ _ => split end; try exact Logic.I; try (vm_compute; lia);
    try (vm_compute; intuition congruence); try (right; unfold can_read; eexists; vm_compute; reflexivity);
    try (unfold can_read; eexists; vm_compute; reflexivity); try (right; right; vm_compute; reflexivity). }
  unfold grow6. repeat match goal with |- m_within _ _ _ _ (_ :: _) => split; [cbn; tauto|]; split; [intros ? ? E; discriminate E|]; split; [vm_compute; discriminate|] end.
  exact Logic.I.
Qed.
(** 5 elements of 4 bytes: blocks of 4, 8, 16 and 32 bytes; "hello" one by one: 2, 3, 4, 5 and 6. *)
Example grow_sizes : exists h m, hv_pushes env0 4 nine mb_nil (repeat (repeat (Some 7) 4) 5) = Ok (h, m) /\
  map (fun k => length (bcells k)) (new_blocks nine h) = [4; 8; 16; 32]%nat.
Proof. eexists. eexists. split; vm_compute; reflexivity. Qed.
Example grow_chars : exists h m, str_pushes env0 nul0 text (str_nil nul0) [104; 101; 108; 108; 111] = Ok (h, m) /\
  map (fun k => length (bcells k)) (new_blocks text h) = [2; 3; 4; 5; 6]%nat.
Proof. eexists. eexists. split; vm_compute; reflexivity. Qed.
