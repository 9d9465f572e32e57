(** * IsIterProofs: istream_iterator over text. *)
From Verif Require Import Base UtilModel StreamModel IstrModel IstrSpec IstrProofs IsIterModel IsIterSpec.
From Coq Require Import ZArith ZifyBool ZifyNat Lia.
Local Open Scope Z_scope.

Lemma last_cons {A} (a : A) l d : last (a :: l) d = last l a.
Proof. revert a d. induction l as [|b l IH]; intros a d; [reflexivity|]. change (last (a :: b :: l) d) with (last (b :: l) d). rewrite !IH. reflexivity. Qed.
Lemma last_app {A} (l m : list A) d : last (l ++ m) d = last m (last l d).
Proof. revert d. induction l as [|a l IH]; intros d; [reflexivity|]. cbn [app]. rewrite !last_cons. apply IH. Qed.
Lemma last_skipd p txt : p 0 = true -> p (last txt 0) = false -> last (skipd p txt) 0 = last txt 0.
Proof.
  intros H0. enough (G : forall d, p d = true -> p (last txt d) = false -> last (skipd p txt) d = last txt d) by (intros H; exact (G 0 H0 H)).
  induction txt as [|c txt IH]; intros d Hd H; [reflexivity|]. cbn [skipd]. destruct (p c) eqn:E; [|reflexivity].
  rewrite last_cons in H. rewrite last_cons, <- (IH c E H).
  destruct (skipd p txt) eqn:F; [|rewrite !last_cons; reflexivity].
  exfalso. specialize (IH c E H). cbn [last] in IH. congruence.
Qed.
Lemma last_skipd_true p txt : p 0 = true -> p (last txt 0) = true -> p (last (skipd p txt) 0) = true.
Proof.
  intros H0 H. destruct (p (last (skipd p txt) 0)) eqn:E; [reflexivity|].
  assert (G : forall l, exists a, l = a ++ skipd p l /\ Forall (fun c => p c = true) a).
  { clear. induction l as [|c l (a & E & F)]; [exists []; auto|]. cbn [skipd]. destruct (p c) eqn:Ec; [|exists []; auto]. exists (c :: a). cbn [app]. rewrite <- E. auto. }
  destruct (G txt) as (a & Ea & Fa). rewrite Ea, last_app in H. destruct (skipd p txt) as [|c t]; [cbn [last] in *; congruence|]. rewrite last_cons in *. congruence.
Qed.

Lemma skipd_length p l : (length (skipd p l) <= length l)%nat.
Proof. induction l as [|c l IH]; cbn [skipd length]; [lia|]. destruct (p c); cbn [length]; lia. Qed.

Definition visited (p : Z -> bool) (txt : list Z) : list (list Z) := if p (last txt 0) then words p txt else removelast (words p txt).

Section Generic.
  Variable uf : Z -> io ist Z.
  Variable P : ist -> list Z -> Prop.
  Hypothesis P_view : forall s txt, P s txt -> exists w rest, txt = w ++ rest /\ View s w.
  Hypothesis P_move : forall s txt k, P s txt -> (Z.of_nat k <= t_remaining s) -> P (tput_pos (t_pos s + Z.of_nat k) s) (skipn k txt).
  Hypothesis P_gc : forall s txt g, P s txt -> P (tput_gcount g s) txt.
  Hypothesis P_state : forall s txt, P s txt -> t_state s = 0 \/ (t_state s = 6 /\ txt = []).
  Hypothesis uf_ok : forall s txt, P s txt -> t_remaining s = 0 ->
    exists s', uf 1 s = Ok (s', Val (t_remaining s')) /\ P s' txt /\ t_gcount s' = t_gcount s /\ kept s s' /\
      (txt = [] -> t_remaining s' = 0 /\ t_state s' = 6) /\ (txt <> [] -> 0 < t_remaining s').

  Let eofp := fun s : ist => negb (Z.land (t_state s) eofbit =? 0).

  (** One word and the state after it. *)
  Lemma word_state fuel s txt : P s txt -> (length txt + 1 < fuel)%nat -> Forall plain txt -> is_delim s 0 = true -> is_delim s (nth 0 (t_delims s) 0) = true ->
    exists s', kept s s' /\
      match skipd (is_delim s) txt with
      | [] => iread_string uf fuel s = Ok (s', Val []) /\ P s' [] /\ t_state s' = 6
      | c :: t => let '(a, b) := wordof (is_delim s) t in
                  iread_string uf fuel s = Ok (s', Val (c :: a)) /\ P s' (tl b) /\ t_state s' = (match b with [] => 6 | _ => 0 end)
      end.
  Proof using P_view P_move P_gc P_state uf_ok.
    intros H Hf HF H0 Hn. unfold iread_string, skip_delimiters. unfold iobind.
    destruct (skip_delimiters_loop_ok uf P P_view P_move P_gc P_state uf_ok fuel s txt _ H Hf Hn) as (s1 & E & H1 & G1 & K1 & A1 & B1). rewrite E. cbn [bind].
    pose proof (skipd_length (is_delim s) txt) as Ln. pose proof (skipd_forall plain (is_delim s) txt HF) as HF2.
    destruct (skipd_spec (is_delim s) txt) as [Es|(c & t & Es & Hc)]; rewrite Es in *.
    - cbn [hd Z.eqb tl]. exists s1. split; [exact K1|]. split; [reflexivity|]. split; [exact H1|apply A1; reflexivity].
    - cbn [hd tl] in *. inversion HF2 as [|? ? (P1 & P2 & P3) HF']; subst x l.
      assert (c <> 0) by (intros ->; congruence). replace (c =? 0) with false by lia. replace (c =? 34) with false by lia. replace (c =? 39) with false by lia. cbn [orb].
      assert (Dl : is_delim s1 = is_delim s) by (unfold is_delim; destruct K1 as (-> & _); reflexivity).
      cbn [length] in Ln.
      destruct (word_loop_ok uf P P_view P_move P_gc P_state uf_ok fuel s1 t c [c] H1 ltac:(lia) HF' P3 ltac:(rewrite Dl; exact H0)) as (s' & E' & H' & G' & K' & St'). rewrite Dl in *.
      exists s'. split; [exact (kept_trans _ _ _ K1 K')|]. destruct (wordof (is_delim s) t) as (a, b). cbn [fst snd] in *. auto.
  Qed.

  Lemma words_nonempty p txt : p 0 = true -> p (last txt 0) = false -> words p txt <> [].
  Proof.
    intros H0 H. rewrite <- words_skipd. pose proof (last_skipd p txt H0 H) as L. destruct (skipd_spec p txt) as [E|(c & t & E & Hc)]; rewrite E in *.
    - cbn [last] in L. congruence.
    - rewrite (words_wordof _ _ _ Hc). destruct (wordof p t). discriminate.
  Qed.

  (** What Read does next. *)
  Lemma read_words : forall n fuel gas s txt v,
    (length txt < n)%nat -> P s txt -> (length txt + 1 < fuel)%nat -> (length txt < gas)%nat -> Forall plain txt -> is_delim s 0 = true -> is_delim s (nth 0 (t_delims s) 0) = true ->
    exists s', (i <~ it_Read ist (list Z) t_remaining uf 1 eofp (fun _ => iread_string uf fuel) (mkiter true v) ;;
                it_copy ist (list Z) t_remaining uf t_pos 1 eofp (fun _ => iread_string uf fuel) gas i (mkiter false [])) s =
      Ok (s', Val (visited (is_delim s) txt)).
  Proof using P_view P_move P_gc P_state uf_ok.
    induction n as [|n IH]; intros fuel gas s txt v Hn H Hf Hg HF H0 Hd; [lia|]. destruct gas as [|gas]; [lia|].
    unfold it_Read. cbn [it_live it_val]. unfold iobind at 1 2.
    assert (M : exists s1 b, (if t_remaining s <? 1 then (r <~ uf 1 ;; ret (r <? 1)) s else Ok (s, Val false)) = Ok (s1, Val b) /\ P s1 txt /\ kept s s1 /\
                (b = true -> txt = []) /\ (txt <> [] -> b = false)).
    { destruct (P_rem uf P P_view P_move P_gc P_state uf_ok s txt H) as (R & N). destruct (Z.ltb_spec (t_remaining s) 1) as [Hr|Hr].
      - destruct (uf_ok s txt H ltac:(lia)) as (s1 & E & H1 & _ & K & A & B). unfold iobind. rewrite E. cbn [bind].
        exists s1, (t_remaining s1 <? 1). split; [reflexivity|]. split; [exact H1|]. split; [exact K|]. split.
        + intros L. destruct txt as [|c t]; [reflexivity|]. specialize (B ltac:(discriminate)). lia.
        + intros T. specialize (B T). lia.
      - exists s, false. split; [reflexivity|]. split; [exact H|]. split; [apply kept_refl|]. split; [discriminate|reflexivity]. }
    destruct M as (s1 & b & -> & H1 & K1 & Hb & Hb'). cbn [bind].
    assert (D1 : is_delim s1 = is_delim s) by (unfold is_delim; destruct K1 as (-> & _); reflexivity).
    assert (N1 : t_delims s1 = t_delims s) by apply K1.
    destruct b.
    { rewrite (Hb eq_refl). cbn [bind ret it_copy]. unfold it_eq. cbn [it_live negb andb orb]. exists s1. unfold visited. cbn [last words removelast]. rewrite H0. reflexivity. }
    destruct (word_state fuel s1 txt H1 Hf HF ltac:(rewrite D1; exact H0) ltac:(rewrite D1, N1; exact Hd)) as (s2 & K2 & W).
    rewrite D1 in W. unfold iobind at 1.
    assert (Ev : visited (is_delim s) txt = visited (is_delim s) (skipd (is_delim s) txt)).
    { unfold visited. rewrite words_skipd. destruct (is_delim s (last txt 0)) eqn:El.
      - rewrite (last_skipd_true _ _ H0 El). reflexivity.
      - rewrite (last_skipd _ _ H0 El), El. reflexivity. }
    rewrite Ev. pose proof (skipd_length (is_delim s) txt) as Ln.
    pose proof (skipd_forall plain (is_delim s) txt HF) as HF2.
    destruct (skipd_spec (is_delim s) txt) as [Es|(c & t & Es & Hc)]; rewrite Es in *.
    { destruct W as (E & H2 & S2). rewrite E. cbn [bind]. unfold eofp. rewrite S2. cbn [bind it_copy]. unfold it_eq. change (negb (negb (Z.land 6 eofbit =? 0))) with false. cbn [it_live negb andb orb].
      exists s2. unfold visited. cbn [last words removelast]. rewrite H0. reflexivity. }
    unfold visited. rewrite (words_wordof _ _ _ Hc). pose proof (wordof_spec (is_delim s) t) as WS.
    destruct (wordof (is_delim s) t) as (a, r) eqn:Ew. destruct W as (E & H2 & S2). destruct WS as (Et & Fa & Hr). rewrite E. cbn [bind].
    assert (Ef : eofp s2 = match r with [] => true | _ => false end) by (unfold eofp; rewrite S2; destruct r; reflexivity). rewrite Ef.
    assert (La : is_delim s (last (c :: a) 0) = false).
    { assert (F : Forall (fun x => is_delim s x = false) (c :: a)) by (constructor; assumption). rewrite last_cons. clear - F. revert c F. induction a as [|x a IHa]; intros c F; [inversion F; assumption|].
      rewrite last_cons. apply IHa. inversion F. assumption. }
    destruct Hr as [->|(d & r' & -> & Hr)]; cbn [tl] in *.
    - cbn [negb bind it_copy]. unfold it_eq. cbn [it_live negb andb orb]. exists s2. rewrite Et, app_nil_r. rewrite La. reflexivity.
    - cbn [bind it_copy]. unfold it_eq. cbn [it_live negb andb orb]. unfold it_incr.
      assert (D2 : is_delim s2 = is_delim s) by (unfold is_delim; destruct K2 as (-> & _); exact D1).
      assert (N2 : t_delims s2 = t_delims s) by (destruct K2 as (-> & _); exact N1).
      rewrite Et in Ln, HF2. cbn [length] in Ln. rewrite app_length in Ln. cbn [length] in Ln.
      assert (Hr' : Forall plain r'). { inversion HF2 as [|? ? _ HF3]; subst. apply Forall_app in HF3. destruct HF3 as (_ & HF3). inversion HF3. assumption. }
      destruct (IH fuel gas s2 r' (c :: a)) as (s' & E'); try (rewrite D2); auto; try lia.
      { rewrite N2. exact Hd. }
      rewrite D2 in E'.
      assert (X : forall i0 last0, (i <~ it_Read ist (list Z) t_remaining uf 1 eofp (fun _ => iread_string uf fuel) i0 ;; r <~ it_copy ist (list Z) t_remaining uf t_pos 1 eofp (fun _ => iread_string uf fuel) gas i last0 ;; ret (it_val i0 :: r)) s2 =
        ' (s3, x) <- (i <~ it_Read ist (list Z) t_remaining uf 1 eofp (fun _ => iread_string uf fuel) i0 ;; it_copy ist (list Z) t_remaining uf t_pos 1 eofp (fun _ => iread_string uf fuel) gas i last0) s2 ;;
        match x with Val l => Ok (s3, Val (it_val i0 :: l)) | Thrown e => Ok (s3, Thrown e) end).
      { intros i0 last0. unfold iobind. destruct (it_Read ist (list Z) t_remaining uf 1 eofp (fun _ => iread_string uf fuel) i0 s2) as [[s3 [i|e]]| | |]; cbn [bind]; try reflexivity. }
      rewrite X, E'. cbn [bind it_val]. exists s'. do 3 f_equal.
      assert (Ll : last (c :: t) 0 = last r' d). { rewrite Et. rewrite last_cons, last_app, last_cons. reflexivity. }
      rewrite Ll. unfold visited. destruct r' as [|e r']; [cbn [last]; rewrite Hr, H0; reflexivity|]. rewrite !last_cons.
      destruct (is_delim s (last r' e)) eqn:El; [reflexivity|].
      assert (Nw : words (is_delim s) (e :: r') <> []) by (apply words_nonempty; [exact H0|rewrite last_cons; exact El]).
      destruct (words (is_delim s) (e :: r')) as [|w ws]; [congruence|reflexivity].
  Qed.

  Lemma all_words fuel s txt : P s txt -> (length txt + 1 < fuel)%nat -> Forall plain txt -> is_delim s 0 = true -> is_delim s (nth 0 (t_delims s) 0) = true ->
    exists s', wi_all uf fuel s = Ok (s', Val (visited (is_delim s) txt)).
  Proof using P_view P_move P_gc P_state uf_ok.
    intros H Hf HF H0 Hd. unfold wi_all, it_all, it_new, it_end. apply (read_words (S (length txt))); auto; lia.
  Qed.
End Generic.
