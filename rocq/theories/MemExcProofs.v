(** * MemExcProofs: an operation on a block or string that cannot allocate leaves it as it was. *)
From Verif Require Import Base UtilModel UtilProofs StoreModel StoreProofs VectorSpec MemModel MemSpec MemProofs MemRun
  StringModel StringSpec StringProofs StringRun MemExcModel MemExcSpec.
From Coq Require Import ZArith ZifyBool ZifyNat.
Local Open Scope Z_scope.

(** The action [a] from [h], [m] has the result [r], or throws and changes nothing. *)
Definition does (a : mact) (h : heap) (m : mb) (r : outcome (heap * mb)) : Prop :=
  forall ans h' m', r = Ok (h', m') -> exists t,
    (a (mkmw h m ans) = Ok (mkmw h' m' t, Returned) /\ refused ans = refused t) \/
    (a (mkmw h m ans) = Ok (mkmw h m t, NoMemory) /\ refused ans = S (refused t)).

Lemma does_do f h m : does (mdo f) h m (f h m).
Proof. intros ans h' m' E. exists ans. left. unfold mdo. cbn [wh wm wans]. rewrite E. split; reflexivity. Qed.

Lemma does_get k h m r : does (k h m) h m r -> does (mget k) h m r.
Proof. intros H ans h' m' E. unfold mget. cbn [wh wm]. exact (H ans h' m' E). Qed.

Lemma does_then a g h m r : does a h m r ->
  does (mthen a (mdo g)) h m (' (h1, m1) <- r ;; g h1 m1).
Proof.
  intros H ans h' m' E. destruct r as [(h1, m1)| | |] eqn:R; try discriminate. cbn [bind] in E.
  destruct (H ans h1 m1 eq_refl) as (t & [(Ea & F)|(Ea & F)]); exists t; unfold mthen; rewrite Ea; cbn [bind].
  - left. unfold mdo. cbn [wh wm wans]. rewrite E. split; [reflexivity|exact F].
  - right. split; [reflexivity|exact F].
Qed.

Lemma does_realloc e p n g h m :
  does (m_realloc e p n (fun nb => mdo (g nb))) h m (' (h1, nb) <- realloc e h p n ;; g nb h1 m).
Proof.
  intros ans h' m' E. unfold m_realloc. cbn [wh wm wans].
  destruct ans as [|[|] t]; cbn [ask].
  - exists []. left. destruct (realloc e h p n) as [(h1, nb)| | |]; try discriminate. cbn [bind] in *.
    unfold mdo. cbn [wh wm wans]. rewrite E. split; reflexivity.
  - exists t. left. destruct (realloc e h p n) as [(h1, nb)| | |]; try discriminate. cbn [bind] in *.
    unfold mdo. cbn [wh wm wans]. rewrite E. split; reflexivity.
  - exists t. right. split; reflexivity.
Qed.

Lemma does_eq a h m r r' : does a h m r -> r = r' -> does a h m r'.
Proof. now intros H <-. Qed.

(** ** memblock *)
Section Block.
  Variable e : env.
  Variable mfc : Z.

  Lemma d_reserve n x h m : does (m_reserve e mfc n x) h m (reserve e mfc h m n x).
  Proof.
    unfold m_reserve, reserve. apply does_get. cbv zeta.
    destruct (u64 (n + mfc) <=? mcap m); [apply (does_do (fun h m => Ok (h, m)))|].
    eapply does_eq; [apply does_realloc|]. reflexivity.
  Qed.
  Lemma d_resize n x h m : does (m_resize e mfc n x) h m (resize e mfc h m n x).
  Proof.
    unfold m_resize, resize. apply (does_then _ (fun h m => Ok (h, mkmb (mptr m) n (mcap m)))). apply does_get.
    destruct (mcap m <? u64 (n + mfc)); [apply d_reserve|apply (does_do (fun h m => Ok (h, m)))].
  Qed.
  Lemma d_copy_link h m : does (m_copy_link e mfc) h m (copy_link e mfc h m).
  Proof. unfold m_copy_link, copy_link. apply does_get. apply d_reserve. Qed.
  Lemma d_assign p n h m : does (m_assign e mfc p n) h m (assign e mfc h m p n).
  Proof. unfold m_assign, assign. apply (does_then _ (fun h m => h <- copy_n h p n (mptr m) ;; Ok (h, m))). apply d_resize. Qed.
  Lemma d_shrink h m : does (m_shrink e) h m (shrink_to_fit e h m).
  Proof.
    unfold m_shrink, shrink_to_fit. apply does_get. destruct (is_linked m); [apply (does_do (fun h m => Ok (h, m)))|].
    destruct (msize m =? 0).
    - apply (does_do (fun h m => ' (h, nb) <- realloc e h (mptr m) (msize m) ;; Ok (h, mkmb nb (msize m) (msize m)))).
    - eapply does_eq; [apply does_realloc|]. reflexivity.
  Qed.
  Lemma d_insert ip n h m : does (m_insert e mfc ip n) h m (insert e mfc h m ip n).
  Proof.
    unfold m_insert, insert. apply does_get.
    apply (does_then _ (fun h m => h <- rotate e h (mptr m) ip (msize m - n) (msize m) ;; Ok (h, m))). apply d_resize.
  Qed.
  Lemma d_erase ep n h m : does (m_erase e mfc ep n) h m (erase e mfc h m ep n).
  Proof.
    unfold m_erase, erase. apply does_get.
    apply (does_then _ (fun h m => h <- rotate e h (mptr m) ep (ep + n) (msize m) ;; Ok (h, mkmb (mptr m) (msize m - n) (mcap m)))). apply d_reserve.
  Qed.
  Lemma d_write_at i x h m : does (m_write_at e mfc i x) h m (write_at e mfc h m i x).
  Proof.
    unfold m_write_at, write_at. apply (does_then _ (fun h m =>
      if (0 <=? i) && (i <? msize m) then h <- store_n h (padd (mptr m) i) [Some x] ;; Ok (h, m) else UB)). apply d_copy_link.
  Qed.
End Block.

(** A step over all blocks: the result [r], or nothing changed. *)
Definition xdoes (x : list bool -> outcome (mwstate * mend)) (s : mstate) (r : outcome mstate) : Prop :=
  forall ans h' ms', r = Ok (h', ms') -> exists t,
    (x ans = Ok (mkmws h' ms' t, Returned) /\ refused ans = refused t) \/
    (x ans = Ok (mkmws (fst s) (snd s) t, NoMemory) /\ refused ans = S (refused t)).

Lemma x_on_does a f h ms i : (forall m, nth_error ms i = Some m -> does a h m (f h m)) ->
  xdoes (fun ans => x_on (mkmws h ms ans) i a) (h, ms) (on (h, ms) i f).
Proof.
  intros D ans h' ms' E. unfold on in E. unfold x_on. cbn [xms xheap xans fst snd].
  destruct (rd ms i) as [m| | |] eqn:R; try discriminate. cbn [bind] in *. apply rd_nth_error in R.
  destruct (f h m) as [(h1, m1)| | |] eqn:F; try discriminate. cbn [bind] in E.
  destruct (wr ms i m1) as [ms1| | |] eqn:W; try discriminate. cbn [bind] in E. injection E as <- <-.
  destruct (D m R ans h1 m1 F) as (t & [(Ea & Q)|(Ea & Q)]); exists t; rewrite Ea; cbn [bind wm wh wans].
  - left. rewrite W. cbn [bind]. split; [reflexivity|exact Q].
  - right. assert (Hi : (i < length ms)%nat) by (apply nth_error_Some; congruence).
    rewrite wr_put, (put_id ms i m R) by exact Hi. cbn [bind]. split; [reflexivity|exact Q].
Qed.

Lemma x_pure_does f h ms : xdoes (fun ans => x_pure (mkmws h ms ans) f) (h, ms) (f (h, ms)).
Proof.
  intros ans h' ms' E. exists ans. left. unfold x_pure. cbn [xheap xms xans]. rewrite E. split; reflexivity.
Qed.

Lemma xmstep_does e h ms o : xdoes (fun ans => xmstep e (mkmws h ms ans) o) (h, ms) (mstep e (h, ms) o).
Proof.
  destruct o; cbn [xmstep mstep snd].
  - apply (x_on_does _ (fun h m => assign e 0 h m p n)). intros; apply d_assign.
  - intros ans h' ms' E. cbn [xms]. destruct (rd ms j) as [b| | |]; try discriminate. cbn [bind] in *.
    refine (x_on_does _ (fun h m => assign e 0 h m (mptr b) (msize b)) h ms i _ ans h' ms' E). intros; apply d_assign.
  - apply (x_pure_does (fun s => swap_mb s i j)).
  - apply (x_pure_does (fun s => swap_mb s i j)).
  - apply (x_on_does _ (fun h m => m' <- link p n ;; Ok (h, m'))). intros; apply (does_do (fun h m => m' <- link p n ;; Ok (h, m'))).
  - apply (x_on_does _ deallocate). intros; apply does_do.
  - apply (x_on_does _ (fun h m => ' (h, p) <- realloc e h None (Z.of_nat (length l)) ;;
          h <- store_n h p (map Some l) ;; m' <- manage p (Z.of_nat (length l)) ;; Ok (h, m'))).
    intros; apply (does_realloc e None (Z.of_nat (length l)) (fun p h m =>
          h <- store_n h p (map Some l) ;; m' <- manage p (Z.of_nat (length l)) ;; Ok (h, m'))).
  - apply (x_on_does _ (fun h m => reserve e 0 h m n exact)). intros; apply d_reserve.
  - apply (x_on_does _ (fun h m => resize e 0 h m n exact)). intros; apply d_resize.
  - apply (x_on_does _ (copy_link e 0)). intros; apply d_copy_link.
  - apply (x_on_does _ (shrink_to_fit e)). intros; apply d_shrink.
  - apply (x_on_does _ (fun h m => insert e 0 h m ip n)). intros; apply d_insert.
  - apply (x_on_does _ (fun h m => erase e 0 h m ep n)). intros; apply d_erase.
  - apply (x_on_does _ (clear e 0)). intros; apply d_resize.
  - apply (x_on_does _ (fun h m => write_at e 0 h m pos x)). intros; apply d_write_at.
Qed.

Section MemRunX.
  Variable e : env.
  Hypothesis Henv : good_env e.
  Hypothesis Hmem : enough_memory e.
  Variable h0 : heap.
  Hypothesis Hc : callers h0.

  Lemma xmrun_ok p : forall h ms ss ans, SInv e h0 h ms ss ->
    prog_pre (mop_pre h0) (mspec_step h0) as_before ss p ->
    exists h' ms' t fs ss', xrun (xmstep e) (mkmws h ms ans) p = Ok (mkmws h' ms' t) /\
      ends (mspec_step h0) as_before ss p fs ss' /\ SInv e h0 h' ms' ss' /\
      refused ans = (refused fs + refused t)%nat /\
      (uses not_linking p -> NoLeak h ms -> NoLeak h' ms').
  Proof.
    induction p as [|o k IHk kt IHt]; intros h ms ss ans I P; cbn [prog_pre xrun uses] in *.
    - exists h, ms, ans, [], ss. split; [reflexivity|]. split; [constructor|]. split; [exact I|]. split; [reflexivity|auto].
    - destruct P as (Po & Pk & Pt).
      destruct (mstep_ok e Henv Hmem h0 Hc h ms ss o I Po) as (h1 & ms1 & E1 & I1 & N1).
      destruct (xmstep_does e h ms o ans h1 ms1 E1) as (t & [(E & Q)|(E & Q)]); rewrite E; cbn [bind].
      + destruct (IHk h1 ms1 _ t I1 Pk) as (h2 & ms2 & t2 & fs & ss2 & E2 & En & I2 & R2 & N2).
        exists h2, ms2, t2, (true :: fs), ss2. split; [exact E2|]. split; [now constructor|]. split; [exact I2|].
        split; [rewrite Q, R2; reflexivity|]. intros (U1 & U2 & _) NL. apply N2; [exact U2|]. apply N1; [|exact NL].
        destruct o; cbn in U1 |- *; tauto.
      + cbn [fst snd]. destruct (IHt h ms ss t I Pt) as (h2 & ms2 & t2 & fs & ss2 & E2 & En & I2 & R2 & N2).
        exists h2, ms2, t2, (false :: fs), ss2. split; [exact E2|]. split; [now apply ends_threw|]. split; [exact I2|].
        split; [rewrite Q, R2; reflexivity|]. intros (_ & _ & U3) NL. apply N2; auto.
  Qed.

  Lemma noleak_owner h ms : NoLeak h ms -> forall b x, nth_error h b = Some x -> bkind x = Owned ->
    exists m o, In m ms /\ is_linked m = false /\ mptr m = Some (b, o).
  Proof.
    intros NL b x Hx K. destruct (NL b) as (i & m & Ei & Eo); [exists x; auto|].
    unfold owner in Eo. unfold is_linked. destruct (mcap m =? 0) eqn:Cm; [discriminate|].
    destruct (mptr m) as [[c o]|] eqn:Pm; [|discriminate]. injection Eo as ->. exists m, o.
    split; [eapply nth_error_In; eauto|]. auto.
  Qed.
End MemRunX.

(** ** Strings *)
Section Str.
  Variable e : env.
  Variable nul : ptr.

  Lemma d_t_resize n h m : does (t_resize e nul n) h m (str_resize e nul h m n).
  Proof.
    unfold t_resize, str_resize. apply does_get. destruct ((n =? 0) && (mcap m =? 0)).
    - apply (does_do (fun h m => Ok (h, mkmb nul 0 0))).
    - apply (does_then _ (fun h m => h <- store_n h (padd (mptr m) n) [Some 0] ;; Ok (h, m))). apply d_resize.
  Qed.
  Lemma d_t_resize_fill n c h m : does (t_resize_fill e nul n c) h m (str_resize_fill e nul h m n c).
  Proof.
    unfold t_resize_fill, str_resize_fill. apply does_get. cbv zeta.
    apply (does_then _ (fun h1 m1 => h <- fill_n h1 (padd (mptr m1) (clamp m1 (msize m))) (Z.max (n - msize m) 0) c ;; Ok (h, m1))). apply d_t_resize.
  Qed.
  Lemma d_t_assign p len h m : does (t_assign e nul p len) h m (str_assign e nul h m p len).
  Proof. unfold t_assign, str_assign. apply (does_then _ (fun h m => h <- copy_n h p len (mptr m) ;; Ok (h, m))). apply d_t_resize. Qed.
  Lemma d_strlen p k f h m : (forall p len, does (k p len) h m (f p len)) ->
    does (t_strlen nul p k) h m (let p := match p with None => nul | _ => p end in len <- strlen h p ;; f p len).
  Proof.
    intros D ans h' m' E. cbv zeta in E. unfold t_strlen. cbv zeta. cbn [wh].
    destruct (strlen h match p with None => nul | Some _ => p end) as [len| | |]; try discriminate. cbn [bind] in *.
    exact (D _ _ ans h' m' E).
  Qed.
  Lemma d_t_assign_c p h m : does (t_assign_c e nul p) h m (str_assign_c e nul h m p).
  Proof. apply (d_strlen p _ (str_assign e nul h m)). intros; apply d_t_assign. Qed.
  Lemma d_t_append p len h m : does (t_append e nul p len) h m (str_append e nul h m p len).
  Proof.
    unfold t_append, str_append. apply does_get.
    apply (does_then _ (fun h m => h <- copy_n h p len (padd (mptr m) (msize m - len)) ;; Ok (h, m))). apply d_t_resize.
  Qed.
  Lemma d_t_append_c p h m : does (t_append_c e nul p) h m (str_append_c e nul h m p).
  Proof. apply (d_strlen p _ (str_append e nul h m)). intros; apply d_t_append. Qed.
  Lemma d_t_append_fill n c h m : does (t_append_fill e nul n c) h m (str_append_fill e nul h m n c).
  Proof.
    unfold t_append_fill, str_append_fill. apply does_get.
    apply (does_then _ (fun h m => h <- fill_n h (padd (mptr m) (msize m - n)) n c ;; Ok (h, m))). apply d_t_resize.
  Qed.
  Lemma d_t_push_back c h m : does (t_push_back e nul c) h m (str_push_back e nul h m c).
  Proof.
    unfold t_push_back, str_push_back. apply does_get.
    apply (does_then _ (fun h m => h <- store_n h (padd (mptr m) (msize m - 1)) [Some c] ;; Ok (h, m))). apply d_t_resize.
  Qed.
  Lemma d_t_pop_back h m : does (t_pop_back e nul) h m (str_pop_back e nul h m).
  Proof. unfold t_pop_back, str_pop_back. apply does_get. apply d_t_resize. Qed.
  Lemma d_t_insert_fill ip n c h m : does (t_insert_fill e ip n c) h m (str_insert_fill e h m ip n c).
  Proof.
    unfold t_insert_fill, str_insert_fill. apply does_get. cbv zeta.
    apply (does_then _ (fun h1 m1 => h <- fill_n h1 (padd (mptr m1) (clamp m ip)) n c ;; terminate h m1)). apply d_insert.
  Qed.
  Lemma d_t_insert ip p len cnt h m : does (t_insert e ip p len cnt) h m (str_insert e h m ip p len cnt).
  Proof.
    unfold t_insert, str_insert. apply does_get. cbv zeta.
    apply (does_then _ (fun h1 m1 => h <- fill h1 (padd (mptr m1) (clamp m ip)) p len cnt ;; terminate h m1)). apply d_insert.
  Qed.
  Lemma d_t_erase ep n h m : does (t_erase e ep n) h m (str_erase e h m ep n).
  Proof.
    unfold t_erase, str_erase, str_erase_at. apply does_get. apply (does_then _ terminate). apply d_erase.
  Qed.
  Lemma d_replace_gen b1 b2 f x y h m :
    does (if b1 : bool then m_erase e 1 f x else if b2 : bool then m_insert e 1 f y else mdo (fun h m => Ok (h, m))) h m
         (if b1 then erase e 1 h m f x else if b2 then insert e 1 h m f y else Ok (h, m)).
  Proof. destruct b1; [apply d_erase|]. destruct b2; [apply d_insert|apply (does_do (fun h m => Ok (h, m)))]. Qed.
  Lemma d_t_replace f l p len cnt h m : does (t_replace e f l p len cnt) h m (str_replace e h m f l p len cnt).
  Proof.
    unfold t_replace, str_replace. apply does_get. cbv zeta.
    apply (does_then _ (fun h1 m1 => h <- fill h1 (padd (mptr m1) (clamp m f)) p len cnt ;; terminate h m1)). apply d_replace_gen.
  Qed.
  Lemma d_t_replace_fill f l cnt c h m : does (t_replace_fill e f l cnt c) h m (str_replace_fill e h m f l cnt c).
  Proof.
    unfold t_replace_fill, str_replace_fill. apply does_get. cbv zeta.
    apply (does_then _ (fun h1 m1 => h <- store_n h1 (padd (mptr m1) (clamp m f)) (repeat (Some c) (Z.to_nat cnt)) ;; terminate h m1)). apply d_replace_gen.
  Qed.
  Lemma d_t_copy s h : does (t_copy e s) h mb_nil (str_copy e h s).
  Proof.
    unfold t_copy, str_copy. cbv zeta. apply (does_then _ (fun h m =>
             if is_linked s then Ok (h, mkmb (mptr s) (msize s) (mcap m))
             else h <- copy_n h (mptr s) (msize m) (mptr m) ;; Ok (h, mkmb (mptr m) (msize m - 1) (mcap m)))). apply d_resize.
  Qed.
  Lemma d_t_of_fill n c h : does (t_of_fill e n c) h mb_nil (str_of_fill e h n c).
  Proof.
    unfold t_of_fill, str_of_fill. apply (does_then _ (fun h m =>
             let m := mkmb (mptr m) (msize m - 1) (mcap m) in
             h <- fill_n h (mptr m) n c ;; h <- store_n h (padd (mptr m) n) [Some 0] ;; Ok (h, m))). apply d_resize.
  Qed.
  Lemma d_t_assign_sub s o n h m : does (t_assign_sub e nul s o n) h m (str_assign_sub e nul h m s o n).
  Proof. unfold t_assign_sub, str_assign_sub. cbv zeta. apply d_t_assign. Qed.
End Str.
