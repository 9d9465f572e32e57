(** * OStrExt: what an operation did does not depend on the answers the system
    would have given later. *)
From Verif Require Import Base UtilModel StoreModel MemModel StringModel StringFindModel StreamModel FileModel OStrModel.
From Coq Require Import ZArith ZifyBool ZifyNat Lia.
Local Open Scope Z_scope.

Definition more (v : list sysres) (f : file) : file := mkf (f_state f) (f_exc f) (f_out f) (f_in f) (f_sched f ++ v).
Definition smore (v : list sysres) (s : ost) : ost := sput_file (more v (s_file s)) s.

Definition FExt {A} (v : list sysres) (m : io file A) : Prop := forall f,
  match m f with
  | Ok (f', r) => m (more v f) = Ok (more v f', r)
  | UB => m (more v f) = UB | Exn x => m (more v f) = Exn x | NoFuel => True
  end.
Definition Ext {A} (v : list sysres) (m : io ost A) : Prop := forall s,
  match m s with
  | Ok (s', r) => m (smore v s) = Ok (smore v s', r)
  | UB => m (smore v s) = UB | Exn x => m (smore v s) = Exn x | NoFuel => True
  end.

Lemma fwrite_fuel : forall fuel l bw f fuel', (fuel <= fuel')%nat ->
  match fwrite_loop fuel l bw f with NoFuel => True | o => fwrite_loop fuel' l bw f = o end.
Proof.
  induction fuel as [|fuel IH]; intros l bw f fuel' Hf; [exact I|].
  destruct fuel' as [|fuel']; [lia|]. cbn [fwrite_loop]. destruct l as [|b l]; [reflexivity|].
  unfold iobind. unfold sys_write. destruct (f_sched f) as [|[k| | |] t]; cbn [bind]; [exact I| | | |].
  - destruct (Nat.min k (length (b :: l))) as [|c] eqn:Ec.
    + destruct (f_fail _ _ _) as [[? [?|?]]| | |]; try reflexivity; exact I.
    + apply IH. lia.
  - apply IH. lia.
  - reflexivity.
  - destruct (f_fail _ _ _) as [[? [?|?]]| | |]; try reflexivity; exact I.
Qed.

Lemma f_fail_ext v b x : FExt v (f_fail b x).
Proof. intros f. unfold f_fail. destruct f as [st ex o i t]. cbn [f_exc f_state more f_out f_in f_sched]. destruct (_ =? 0); reflexivity. Qed.

Lemma fwrite_loop_ext v : forall fuel l bw, FExt v (fwrite_loop fuel l bw).
Proof.
  induction fuel as [|fuel IH]; intros l bw f; [exact I|]. cbn [fwrite_loop]. destruct l as [|b l]; [reflexivity|].
  unfold iobind, sys_write. destruct f as [st ex o i t]. cbn [f_exc f_state more f_out f_in f_sched].
  destruct t as [|q t]; cbn [app]; [exact I|]. destruct q as [k| | |]; cbn [bind].
  - destruct (Nat.min k (length (b :: l))) as [|c] eqn:Ec.
    + pose proof (f_fail_ext v (Z.lor eofbit failbit) stream_bounds (mkf st ex (o ++ firstn 0 (b :: l)) i t)) as H. unfold more in H. cbn [f_exc f_state f_out f_in f_sched] in H.
      destruct (f_fail _ _ _) as [[? [?|?]]| | |]; rewrite ?H; try reflexivity; exact I.
    + exact (IH (skipn (S c) (b :: l)) (bw + S c)%nat (mkf st ex (o ++ firstn (S c) (b :: l)) i t)).
  - exact (IH (b :: l) bw (mkf st ex o i t)).
  - reflexivity.
  - pose proof (f_fail_ext v failbit file_exception (mkf st ex o i t)) as H. unfold more in H. cbn [f_exc f_state f_out f_in f_sched] in H.
    destruct (f_fail _ _ _) as [[? [?|?]]| | |]; rewrite ?H; try reflexivity; exact I.
Qed.

Lemma fwrite_ext v l : FExt v (fwrite l).
Proof.
  intros f. unfold fwrite. pose proof (fwrite_loop_ext v (S (length (f_sched f))) l 0 f) as H.
  cbn [more f_sched].
  destruct (fwrite_loop (S (length (f_sched f))) l 0 f) as [[f' r]| |x|]; [| | |exact I];
    (pose proof (fwrite_fuel (S (length (f_sched f))) l 0 (more v f) (S (length (f_sched f ++ v)))) as Q; rewrite H in Q; apply Q; rewrite app_length; lia).
Qed.

Section S.
  Variable v : list sysres.
  Lemma ext_ret {A} (a : A) : Ext v (ret a). Proof. intros s. reflexivity. Qed.
  Lemma ext_bind {A B} (m : io ost A) (k : A -> io ost B) : Ext v m -> (forall a, Ext v (k a)) -> Ext v (iobind m k).
  Proof.
    intros Hm Hk s. unfold iobind. specialize (Hm s). destruct (m s) as [[s' r]| |x|]; cbn [bind]; [|rewrite Hm; reflexivity|rewrite Hm; reflexivity|exact I].
    rewrite Hm. cbn [bind]. destruct r as [a|x]; [|reflexivity]. specialize (Hk a s'). exact Hk.
  Qed.
  Lemma ext_at {A} (m : ost -> io ost A) : (forall s, Ext v (m s)) -> (forall s s0, m (smore v s) s0 = m s s0) -> Ext v (fun s => m s s).
  Proof. intros H E s. specialize (H s s). rewrite E. exact H. Qed.
  Lemma ext_on_buf f : Ext v (on_buf f).
  Proof. intros s. unfold on_buf. cbn [smore sput_file s_heap s_buf]. destruct (f (s_heap s) (s_buf s)) as [[h b]| |x|]; try exact I; reflexivity. Qed.
  Lemma ext_link_buf : Ext v link_buf. Proof. intros s. reflexivity. Qed.
  Lemma ext_overrun r : Ext v (s_overrun r).
  Proof. intros s. unfold s_overrun. cbn [smore sput_file s_exc s_state]. destruct (_ =? 0); reflexivity. Qed.
  Lemma ext_verify n : Ext v (s_verify n).
  Proof.
    apply (ext_at (fun s => fun s0 => if n <=? s_remaining s then Ok (s0, Val true) else (_ <~ s_overrun (s_remaining s) ;; ret false) s0)).
    - intros s s0. destruct (n <=? s_remaining s); [reflexivity|]. apply (ext_bind (s_overrun (s_remaining s)) (fun _ => ret false)); [apply ext_overrun|intros; apply ext_ret].
    - reflexivity.
  Qed.
  Lemma ext_write l : Ext v (s_write l).
  Proof.
    unfold s_write. apply ext_bind; [apply ext_verify|]. intros []; [|apply ext_ret]. intros s. cbn [smore sput_file s_heap s_vptr s_pos].
    destruct (store_n _ _ _); reflexivity.
  Qed.
  Lemma ext_vsnprintf t sp : Ext v (vsnprintf t sp).
  Proof. intros s. unfold vsnprintf. destruct (sp <=? 0); [reflexivity|]. cbn [smore sput_file s_heap s_vptr s_pos]. destruct (store_n _ _ _); reflexivity. Qed.
  Section V.
    Variable ov : Z -> io ost Z.
    Hypothesis Hov : forall n, Ext v (ov n).
    Lemma ext_put c : Ext v (os_put ov c).
    Proof.
      intros s. unfold os_put. change (s_remaining (smore v s)) with (s_remaining s). destruct (1 <=? s_remaining s); [apply ext_write|].
      apply (ext_bind (ov 1) (fun r => if 1 <=? r then s_write [c] else ret tt)); [apply Hov|]. intros a. destruct (1 <=? a); [apply ext_write|apply ext_ret].
    Qed.
    Lemma ext_write_loop : forall fuel l, Ext v (os_write_loop ov fuel l).
    Proof.
      induction fuel as [|fuel IH]; intros l; [intros s; exact I|]. cbn [os_write_loop]. apply ext_bind.
      - intros s. change (s_remaining (smore v s)) with (s_remaining s). destruct (_ =? 0); [apply Hov|reflexivity].
      - intros r. cbv zeta. destruct (_ =? 0); [apply ext_ret|]. apply ext_bind; [apply ext_write|intros; apply IH].
    Qed.
    Lemma ext_format_loop : forall fuel t, Ext v (os_format_loop ov fuel t).
    Proof.
      induction fuel as [|fuel IH]; intros t; [intros s; exact I|]. cbn [os_format_loop]. intros s.
      change (s_remaining (smore v s)) with (s_remaining s).
      apply (ext_bind (vsnprintf t (to_int (s_remaining s))) (fun _ => if Z.of_nat (length t) <? to_int (s_remaining s) then
         (fun s0 => Ok (sput_pos (s_pos s0 + Z.min (Z.of_nat (length t)) (to_int (s_remaining s))) s0, Val tt)) else
         r <~ ov (Z.of_nat (length t) + 1) ;; if Z.of_nat (length t) <? to_int r then os_format_loop ov fuel t else
           (fun s0 => Ok (sput_pos (s_pos s0 + Z.min (Z.of_nat (length t)) (to_int (s_remaining s))) s0, Val tt)))); [apply ext_vsnprintf|].
      intros _. destruct (_ <? _); [intros s0; reflexivity|]. apply ext_bind; [apply Hov|]. intros r. destruct (_ <? _); [apply IH|intros s0; reflexivity].
    Qed.
  End V.
  Variable e : env.
  Variable nul : ptr.
  Lemma ext_oss_overflow n : Ext v (oss_overflow e nul n).
  Proof.
    unfold oss_overflow. apply ext_bind.
    - intros s. change (s_remaining (smore v s)) with (s_remaining s). change (s_good (smore v s)) with (s_good s).
      change (s_capacity (smore v s)) with (s_capacity s). change (s_pos (smore v s)) with (s_pos s).
      destruct (_ && _); [|reflexivity].
      refine (ext_bind _ _ _ (fun _ => ext_bind _ _ _ (fun _ => ext_bind _ _ _ (fun _ => _))) s); [apply ext_on_buf|apply ext_on_buf|apply ext_link_buf|].
      intros s0; reflexivity.
    - intros _. apply ext_bind; [apply ext_verify|]. intros _ s. reflexivity.
  Qed.
  Lemma ext_erase n : Ext v (s_erase_front e n).
  Proof. intros s. unfold s_erase_front. cbn [smore sput_file s_heap s_vptr s_vsize]. destruct (rotate _ _ _ _ _ _); reflexivity. Qed.
  Lemma ext_of_overflow n : Ext v (of_overflow e nul n).
  Proof.
    unfold of_overflow. apply ext_bind; [|intros; apply ext_oss_overflow]. intros s.
    change (f_good (s_file (smore v s))) with (f_good (s_file s)).
    change (s_capacity (smore v s)) with (s_capacity s). change (s_pos (smore v s)) with (s_pos s).
    destruct (_ && _); [|reflexivity]. change (s_heap (smore v s)) with (s_heap s). change (s_vptr (smore v s)) with (s_vptr s).
    destruct (l <- load_n (s_heap s) (s_vptr s) (s_pos s) ;; determined l) as [l| |x|]; try reflexivity.
    change (s_file (smore v s)) with (more v (s_file s)). pose proof (fwrite_ext v l (s_file s)) as H.
    destruct (fwrite l (s_file s)) as [[f [bw|x]]| |x|]; [| | | |exact I]; rewrite H; try reflexivity.
    change (sput_file (more v f) (smore v s)) with (smore v (sput_file f s)). apply ext_erase.
  Qed.
  Lemma ext_of_flush : forall fuel, Ext v (of_flush e nul fuel).
  Proof.
    induction fuel as [|fuel IH]; intros s; [exact I|]. cbn [of_flush].
    change (s_good (smore v s)) with (s_good s). change (s_capacity (smore v s)) with (s_capacity s). change (s_pos (smore v s)) with (s_pos s).
    destruct (_ && _); [|reflexivity].
    apply (ext_bind (of_overflow e nul (s_capacity s)) (fun r => if r =? 0 then ret tt else of_flush e nul fuel)); [apply ext_of_overflow|].
    intros r. destruct (_ =? 0); [apply ext_ret|apply IH].
  Qed.
  Lemma ext_of_step fuel o : Ext v (of_step e nul fuel o).
  Proof.
    destruct o; cbn [of_step]; [apply ext_write_loop|apply ext_put|apply ext_format_loop|apply ext_of_flush|intros s; reflexivity]; intros; apply ext_of_overflow.
  Qed.
  Lemma ext_of_run fuel ops : forall s,
    match orun (of_step e nul fuel) ops s with
    | Ok (s', r) => orun (of_step e nul fuel) ops (smore v s) = Ok (smore v s', r)
    | UB => orun (of_step e nul fuel) ops (smore v s) = UB
    | Exn x => orun (of_step e nul fuel) ops (smore v s) = Exn x
    | NoFuel => True
    end.
  Proof.
    induction ops as [|o ops IH]; intros s; cbn [orun]; [reflexivity|].
    pose proof (ext_of_step fuel o s) as H. destruct (of_step e nul fuel o s) as [[s1 r]| |x|]; cbn [bind]; [|rewrite H; reflexivity|rewrite H; reflexivity|exact I].
    rewrite H. cbn [bind]. specialize (IH s1). destruct (orun (of_step e nul fuel) ops s1) as [[s2 rs]| |x|]; cbn [bind]; rewrite ?IH; try exact I; reflexivity.
  Qed.
End S.
