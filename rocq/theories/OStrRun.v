(** * OStrRun: histories of ostringstream and ofstream operations. *)
From Verif Require Import Base UtilModel UtilProofs StoreModel StoreProofs VectorSpec MemModel MemSpec MemProofs StringModel StringFindModel StreamModel FileModel FileSpec FileProofs OStrModel OStrSpec OStrProofs.
From Coq Require Import ZArith ZifyBool ZifyNat Lia.
Local Open Scope Z_scope.

Definition no_memory (e : env) (bound : Z) : Prop := exists k, 0 <= k <= bound /\ malloc_ok e k = false.

Section WithEnv.
  Variable e : env.
  Variable nul : ptr.

  Lemma oss_flush_ok s w : OInv e nul s w ->
    exists s', oss_flush e nul s = Ok (s', Val tt) /\ OInv e nul s' w /\ s_file s' = s_file s /\ s_exc s' = s_exc s /\
      load_n (s_heap s') (mptr (s_buf s')) (msize (s_buf s')) = Ok (map Some w).
  Proof.
    intros I. pose proof (OInv_bounds e nul s w I) as (B1 & B2 & B3 & B4 & B5).
    destruct I as (Hnul & P & St & B). unfold oss_flush, on_buf.
    destruct B as [(C & Pm & Ms & V & ->)|(b & cells & Pm & Ho & C & Cb & F & V & Vp)].
    - rewrite P. unfold str_resize. cbn [length Z.of_nat Z.eqb andb]. rewrite C. cbn [Z.eqb andb].
      eexists. split; [reflexivity|]. split; [|split; [reflexivity|]; split; [reflexivity|]; reflexivity].
      split; [exact Hnul|]. split; [exact P|]. split; [exact St|]. left. cbn [sput_mem s_buf mcap mptr msize s_vsize]. auto.
    - assert (Eb : s_buf s = mkmb (Some (b, 0)) (msize (s_buf s)) (Z.of_nat (length cells))) by (destruct (s_buf s); cbn in *; congruence).
      rewrite Eb.
      destruct (str_resize_own e nul (s_heap s) b cells (msize (s_buf s)) (s_pos s) Hnul Ho ltac:(lia) ltac:(lia) ltac:(lia)) as (h2 & c2 & R & O2 & L2 & N2 & F2).
      rewrite R. eexists. split; [reflexivity|]. split; [|split; [reflexivity|]; split; [reflexivity|]].
      + split; [exact N2|]. split; [exact P|]. split; [exact St|]. right. exists b, c2. cbn [sput_mem s_buf mcap mptr msize s_vsize s_heap s_vptr].
        split; [reflexivity|]. split; [exact O2|]. split; [lia|]. split; [lia|]. split; [|split; [lia|exact Vp]].
        rewrite <- F. replace (Z.to_nat (s_pos s)) with (length w) in F2 by lia. exact F2.
      + cbn [sput_mem s_buf mptr msize s_heap]. unfold Own in O2.
        eapply (load_ok' h2 b _ 0 (s_pos s) [] _ (skipn (length w) c2) O2); [reflexivity| |reflexivity|rewrite map_length; lia].
        cbn [bcells app]. rewrite <- F. replace (Z.to_nat (s_pos s)) with (length w) in F2 by lia. rewrite <- F2. symmetry. apply firstn_skipn.
  Qed.

  Lemma oss_default_ok h f : has_nul h nul ->
    exists s, oss_default e nul h f = Ok s /\ OInv e nul s [] /\ s_file s = f /\ s_exc s = 0 /\ mcap (s_buf s) = 0.
  Proof.
    intros Hn. pose proof Hn as (b & base & En & Nb). unfold oss_default, str_of_c. rewrite En.
    unfold strlen, rd. rewrite Nb. cbn. eexists. split; [reflexivity|]. split; [|auto].
    split; [rewrite <- En; exact Hn|]. split; [reflexivity|]. split; [reflexivity|]. left. cbn. auto.
  Qed.

  (** ** ostringstream *)
  Definition oss_B (W : list Z) (n : Z) : Prop := Z.of_nat (length W) + n + 1 <= 2 ^ 31.
  Lemma OInv_len s w w' : OInv e nul s w -> OInv e nul s w' -> length w = length w'.
  Proof. intros (_ & A & _) (_ & B & _). lia. Qed.

  Lemma oss_step_ok o s W : OInv e nul s W -> Z.of_nat (length W + length (bytes_of o)) + 2 <= 2 ^ 31 ->
    exists s' r, oss_step e nul o s = Ok (s', r) /\ Post (OInv e nul) (no_memory e (2 ^ 31)) s' r W (bytes_of o).
  Proof.
    intros I Hb.
    assert (P_inv : forall s W, OInv e nul s W -> exists A w, W = A ++ w /\ OInv e nul s w) by (intros s0 W0 H; exists [], W0; auto).
    assert (P_write : forall s A w s' l, OInv e nul s (A ++ w) -> OInv e nul s w -> OInv e nul s' (w ++ l) -> s_file s' = s_file s -> s_exc s' = s_exc s ->
      s_buf s' = s_buf s -> OInv e nul s' ((A ++ w) ++ l)).
    { intros s0 A w s' l H1 H2 H3 _ _ _. pose proof (OInv_len _ _ _ H1 H2) as L. rewrite app_length in L.
      assert (A = []) as -> by (destruct A; [reflexivity|cbn [length] in L; lia]). exact H3. }
    assert (P_same : forall s W s', OInv e nul s W -> (forall w, OInv e nul s w -> OInv e nul s' w) -> s_file s' = s_file s -> s_exc s' = s_exc s ->
      s_buf s' = s_buf s -> OInv e nul s' W) by auto.
    assert (B_mono : forall W l n, oss_B W (Z.of_nat (length l) + n) -> 0 <= n -> oss_B (W ++ l) n)
      by (intros W0 l n; unfold oss_B; rewrite app_length; lia).
    assert (B_len : forall W n, oss_B W n -> n < 2 ^ 31) by (unfold oss_B; intros; lia).
    assert (ov_ok : forall s W n, OInv e nul s W -> 0 <= n -> oss_B W n ->
      exists s' r, oss_overflow e nul n s = Ok (s', r) /\ OInv e nul s' W /\
        ((r = Val (s_remaining s') /\ n <= s_remaining s') \/ (r = Thrown bad_alloc /\ no_memory e (2 ^ 31)))).
    { intros s0 W0 n H Hn Hbb. destruct (oss_overflow_ok e nul s0 W0 n H Hn Hbb) as (s' & r & E & I' & _ & _ & _ & R).
      exists s', r. split; [exact E|]. split; [exact I'|]. destruct R as [(-> & R & _)|(-> & _ & R)]; auto. }
    destruct o as [l|c|t| |]; cbn [oss_step bytes_of] in *.
    - eapply os_write_ok; eauto. unfold oss_B. lia.
    - cbn [length] in Hb. eapply os_put_ok; eauto. unfold oss_B. lia.
    - eapply os_format_ok; eauto. unfold oss_B. lia.
    - destruct (oss_flush_ok s W I) as (s' & E & I' & _). exists s', (Val tt). split; [exact E|]. left. rewrite app_nil_r. auto.
    - eexists _, (Val tt). split; [reflexivity|]. left. rewrite app_nil_r. split; [reflexivity|].
      destruct I as (A & B & C & D). split; [exact A|]. split; [exact B|]. split; [reflexivity|exact D].
  Qed.

  Definition total_bytes (ops : list oop) : nat := list_sum (map (fun o => length (bytes_of o)) ops).

  Lemma oss_run_ok ops : forall s W, OInv e nul s W -> Z.of_nat (length W + total_bytes ops) + 2 <= 2 ^ 31 ->
    exists s' rs W', orun (oss_step e nul) ops s = Ok (s', rs) /\ contributions ops rs W' /\ OInv e nul s' (W ++ W') /\
      ((exists x, In (Thrown x) rs) -> no_memory e (2 ^ 31)).
  Proof.
    induction ops as [|o ops IH]; intros s W I Hb.
    - exists s, [], []. split; [reflexivity|]. split; [constructor|]. rewrite app_nil_r. split; [exact I|]. intros (x & []).
    - cbn [orun]. unfold total_bytes in Hb. cbn [map list_sum fold_right] in Hb. fold (list_sum (map (fun o => length (bytes_of o)) ops)) in Hb. fold (total_bytes ops) in Hb.
      destruct (oss_step_ok o s W I ltac:(lia)) as (s1 & r & E & Q). rewrite E. cbn [bind].
      destruct Q as [(-> & I1)|(-> & Om & p & q & Eq & I1)].
      + destruct (IH s1 (W ++ bytes_of o) I1) as (s' & rs & W' & E' & C' & I' & M'); [rewrite app_length; lia|].
        rewrite E'. cbn [bind]. exists s', (Val tt :: rs), (bytes_of o ++ W'). split; [reflexivity|].
        split; [constructor; [reflexivity|exact C']|]. split; [rewrite app_assoc; exact I'|].
        intros (x & [Hx|Hx]); [discriminate|]. apply M'. eauto.
      + assert (Lp : (length p <= length (bytes_of o))%nat) by (rewrite Eq, app_length; lia).
        destruct (IH s1 (W ++ p) I1) as (s' & rs & W' & E' & C' & I' & M'); [rewrite app_length; lia|].
        rewrite E'. cbn [bind]. exists s', (Thrown bad_alloc :: rs), (p ++ W'). split; [reflexivity|].
        split; [constructor; [split; [reflexivity|exists q; exact Eq]|exact C']|]. split; [rewrite app_assoc; exact I'|].
        intros _. exact Om.
  Qed.
End WithEnv.
