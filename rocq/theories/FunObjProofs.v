From Verif Require Import Base FunObjModel FunObjSpec.

Section P.
  Context {A W : Type}.
  Implicit Types (a l pre post : list A).

  Lemma snoc (pre l : list A) x : pre ++ x :: l = (pre ++ [x]) ++ l.
  Proof. now rewrite <- app_assoc. Qed.

  Lemma for_each_ok (f : W -> A -> W * A * bool) l : forall pre post w,
    fo_for_each f (length l) (pre ++ l ++ post) (length pre) w =
    let '(w', l', ok) := run_on f w l in Ok (pre ++ l' ++ post, w', when ok tt).
  Proof.
    induction l as [|x t IH]; intros pre post w; cbn [fo_for_each run_on length app]; [reflexivity|].
    rewrite rd_app, bind_Ok. destruct (f w x) as [[w' x'] thr].
    rewrite wr_app, bind_Ok. destruct thr; [reflexivity|].
    rewrite (snoc pre (t ++ post) x'). replace (S (length pre)) with (length (pre ++ [x'])) by (rewrite app_length; cbn; lia).
    rewrite IH. destruct (run_on f w' t) as [[w'' t'] ok]. now rewrite <- (snoc pre (t' ++ post)).
  Qed.

  Lemma generate_ok (gen : W -> unit -> W * option A) l : forall pre post w,
    fo_generate gen (length l) (pre ++ l ++ post) (length pre) w =
    let '(w', ys, ok) := run_calls gen w (repeat tt (length l)) in Ok (pre ++ over ys l ++ post, w', when ok tt).
  Proof.
    induction l as [|x t IH]; intros pre post w; cbn [fo_generate run_calls length app repeat]; [reflexivity|].
    destruct (gen w tt) as [w' [y|]]; [|reflexivity].
    rewrite wr_app, bind_Ok.
    rewrite (snoc pre (t ++ post) y). replace (S (length pre)) with (length (pre ++ [y])) by (rewrite app_length; cbn; lia).
    rewrite IH. destruct (run_calls gen w' (repeat tt (length t))) as [[w'' ys] ok].
    now rewrite <- (snoc pre (over ys t ++ post)).
  Qed.

  Lemma generate_n_ok (gen : W -> unit -> W * option A) l : forall pre post w,
    fo_generate_n gen (length l) (pre ++ l ++ post) (length pre) w =
    let '(w', ys, ok) := run_calls gen w (repeat tt (length l)) in
    Ok (pre ++ over ys l ++ post, w', when ok (length pre + length l)).
  Proof.
    induction l as [|x t IH]; intros pre post w; cbn [fo_generate_n run_calls length app repeat].
    - unfold when; now rewrite ?Nat.add_0_r.
    - destruct (gen w tt) as [w' [y|]]; [|reflexivity].
      rewrite wr_app, bind_Ok.
      rewrite (snoc pre (t ++ post) y). replace (S (length pre)) with (length (pre ++ [y])) by (rewrite app_length; cbn; lia).
      rewrite IH. destruct (run_calls gen w' (repeat tt (length t))) as [[w'' ys] ok].
      rewrite <- (snoc pre (over ys t ++ post)), app_length.
      replace (length pre + length [y] + length t) with (length pre + S (length t)) by (cbn; lia). reflexivity.
  Qed.

  (** In place. *)
  Lemma transform_in_place (op : W -> A -> W * option A) l : forall pre post w,
    fo_transform op (length l) (pre ++ l ++ post) (length pre) (length pre) w =
    let '(w', ys, ok) := run_calls op w l in
    Ok (pre ++ over ys l ++ post, w', when ok (length pre + length l)).
  Proof.
    induction l as [|x t IH]; intros pre post w; cbn [fo_transform run_calls length app].
    - unfold when; now rewrite ?Nat.add_0_r.
    - rewrite rd_app, bind_Ok. destruct (op w x) as [w' [y|]]; [|reflexivity].
      rewrite wr_app, bind_Ok.
      rewrite (snoc pre (t ++ post) y). replace (S (length pre)) with (length (pre ++ [y])) by (rewrite app_length; cbn; lia).
      rewrite IH. destruct (run_calls op w' t) as [[w'' ys] ok].
      rewrite <- (snoc pre (over ys t ++ post)), app_length.
      replace (length pre + length [y] + length t) with (length pre + S (length t)) by (cbn; lia). reflexivity.
  Qed.

  Lemma rd_at (a b c : list A) x i : i = length a + length b -> rd (a ++ b ++ x :: c) i = Ok x.
  Proof. intros ->. rewrite app_assoc. apply rd_app'. now rewrite app_length. Qed.
  Lemma wr_at (a b c : list A) x v i : i = length a + length b -> wr (a ++ b ++ x :: c) i v = Ok (a ++ b ++ v :: c).
  Proof. intros ->. rewrite !(app_assoc a b). apply wr_app'. now rewrite app_length. Qed.

  (** To another place: the source [l] first, then the destination [d], or the
      other way round. *)
  Lemma transform_after (op : W -> A -> W * option A) l : forall pre mid d post w, length d = length l ->
    fo_transform op (length l) (pre ++ l ++ mid ++ d ++ post) (length pre) (length pre + length l + length mid) w =
    let '(w', ys, ok) := run_calls op w l in
    Ok (pre ++ l ++ mid ++ over ys d ++ post, w', when ok (length pre + length l + length mid + length d)).
  Proof.
    induction l as [|x t IH]; intros pre mid d post w Hd; destruct d as [|z d]; try discriminate Hd;
      cbn [fo_transform run_calls length app].
    - unfold when; now rewrite ?Nat.add_0_r.
    - rewrite rd_app, bind_Ok. destruct (op w x) as [w' [y|]]; [|reflexivity].
      replace (pre ++ x :: t ++ mid ++ z :: d ++ post) with ((pre ++ x :: t) ++ mid ++ z :: d ++ post) by (now rewrite <- app_assoc).
      rewrite wr_at by (rewrite app_length; cbn; lia). rewrite bind_Ok.
      replace ((pre ++ x :: t) ++ mid ++ y :: d ++ post) with ((pre ++ [x]) ++ t ++ (mid ++ [y]) ++ d ++ post)
        by (rewrite <- !app_assoc; reflexivity).
      replace (S (length pre)) with (length (pre ++ [x])) by (rewrite app_length; cbn; lia).
      replace (S (length pre + S (length t) + length mid)) with (length (pre ++ [x]) + length t + length (mid ++ [y]))
        by (rewrite !app_length; cbn; lia).
      rewrite IH by (cbn in Hd; lia). destruct (run_calls op w' t) as [[w'' ys] ok].
      rewrite <- !app_assoc, !app_length. cbn [app].
      replace (length pre + length [x] + length t + (length mid + length [y]) + length d)
        with (length pre + S (length t) + length mid + S (length d)) by (cbn; lia). reflexivity.
  Qed.

  Lemma transform_before (op : W -> A -> W * option A) l : forall pre mid d post w, length d = length l ->
    fo_transform op (length l) (pre ++ d ++ mid ++ l ++ post) (length pre + length d + length mid) (length pre) w =
    let '(w', ys, ok) := run_calls op w l in
    Ok (pre ++ over ys d ++ mid ++ l ++ post, w', when ok (length pre + length d)).
  Proof.
    induction l as [|x t IH]; intros pre mid d post w Hd; destruct d as [|z d]; try discriminate Hd;
      cbn [fo_transform run_calls length app].
    - unfold when; now rewrite ?Nat.add_0_r.
    - replace (pre ++ z :: d ++ mid ++ x :: t ++ post) with ((pre ++ z :: d) ++ mid ++ x :: t ++ post) by (now rewrite <- app_assoc).
      rewrite rd_at by (rewrite app_length; cbn; lia). rewrite bind_Ok.
      destruct (op w x) as [w' [y|]]; [|now rewrite <- app_assoc].
      rewrite <- app_assoc. cbn [app]. rewrite wr_app, bind_Ok.
      replace (pre ++ y :: d ++ mid ++ x :: t ++ post) with ((pre ++ [y]) ++ d ++ (mid ++ [x]) ++ t ++ post)
        by (rewrite <- !app_assoc; reflexivity).
      replace (S (length pre + S (length d) + length mid)) with (length (pre ++ [y]) + length d + length (mid ++ [x]))
        by (rewrite !app_length; cbn; lia).
      replace (S (length pre)) with (length (pre ++ [y])) by (rewrite app_length; cbn; lia).
      rewrite IH by (cbn in Hd; lia). destruct (run_calls op w' t) as [[w'' ys] ok].
      rewrite <- !app_assoc, !app_length. cbn [app].
      replace (length pre + length [y] + length d) with (length pre + S (length d)) by (cbn; lia). reflexivity.
  Qed.

  (** The second source and the result anywhere, as for three ranges one after
      the other; and in place of the first. *)
  Lemma transform2_ok (op : W -> A * A -> W * option A) l1 : forall l2 d p1 p2 p3 p4 w, length l2 = length l1 -> length d = length l1 ->
    fo_transform2 op (length l1) (p1 ++ l1 ++ p2 ++ l2 ++ p3 ++ d ++ p4) (length p1) (length p1 + length l1 + length p2)
      (length p1 + length l1 + length p2 + length l2 + length p3) w =
    let '(w', ys, ok) := run_calls op w (combine l1 l2) in
    Ok (p1 ++ l1 ++ p2 ++ l2 ++ p3 ++ over ys d ++ p4, w',
        when ok (length p1 + length l1 + length p2 + length l2 + length p3 + length d)).
  Proof.
    induction l1 as [|x t IH]; intros l2 d p1 p2 p3 p4 w H2 Hd; destruct l2 as [|y t2]; try discriminate H2;
      destruct d as [|z d]; try discriminate Hd; cbn [fo_transform2 run_calls combine length app].
    - unfold when; now rewrite ?Nat.add_0_r.
    - rewrite rd_app, bind_Ok.
      replace (p1 ++ x :: t ++ p2 ++ y :: t2 ++ p3 ++ z :: d ++ p4) with ((p1 ++ x :: t) ++ p2 ++ y :: t2 ++ p3 ++ z :: d ++ p4) by (now rewrite <- app_assoc).
      rewrite rd_at by (rewrite app_length; cbn; lia). rewrite bind_Ok.
      destruct (op w (x, y)) as [w' [v|]]; [|now rewrite <- app_assoc].
      replace ((p1 ++ x :: t) ++ p2 ++ y :: t2 ++ p3 ++ z :: d ++ p4) with ((p1 ++ x :: t ++ p2 ++ y :: t2) ++ p3 ++ z :: d ++ p4)
        by (rewrite <- !app_assoc; cbn [app]; rewrite <- !app_assoc; reflexivity).
      rewrite wr_at by (rewrite !app_length; cbn; rewrite !app_length; cbn; lia). rewrite bind_Ok.
      replace ((p1 ++ x :: t ++ p2 ++ y :: t2) ++ p3 ++ v :: d ++ p4) with ((p1 ++ [x]) ++ t ++ (p2 ++ [y]) ++ t2 ++ (p3 ++ [v]) ++ d ++ p4)
        by (rewrite <- !app_assoc; cbn [app]; rewrite <- !app_assoc; reflexivity).
      replace (S (length p1)) with (length (p1 ++ [x])) by (rewrite app_length; cbn; lia).
      replace (S (length p1 + S (length t) + length p2)) with (length (p1 ++ [x]) + length t + length (p2 ++ [y]))
        by (rewrite !app_length; cbn; lia).
      replace (S (length p1 + S (length t) + length p2 + S (length t2) + length p3))
        with (length (p1 ++ [x]) + length t + length (p2 ++ [y]) + length t2 + length (p3 ++ [v]))
        by (rewrite !app_length; cbn; lia).
      rewrite IH by (cbn in H2, Hd; lia). destruct (run_calls op w' (combine t t2)) as [[w'' ys] ok].
      rewrite <- !app_assoc, !app_length. cbn [app].
      replace (length p1 + length [x] + length t + (length p2 + length [y]) + length t2 + (length p3 + length [v]) + length d)
        with (length p1 + S (length t) + length p2 + S (length t2) + length p3 + S (length d)) by (cbn; lia). reflexivity.
  Qed.

  Lemma count_if_ok (pred : W -> A -> W * option bool) l : forall pre post total w,
    fo_count_if pred (length l) (pre ++ l ++ post) (length pre) total w =
    let '(w', ans, ok) := run_calls pred w l in Ok (w', when ok (total + length (answered true l ans))).
  Proof.
    induction l as [|x t IH]; intros pre post total w; cbn [fo_count_if run_calls length app].
    - unfold when; now rewrite ?Nat.add_0_r.
    - rewrite rd_app, bind_Ok. destruct (pred w x) as [w' [b|]]; [|reflexivity].
      rewrite (snoc pre (t ++ post) x). replace (S (length pre)) with (length (pre ++ [x])) by (rewrite app_length; cbn; lia).
      rewrite IH. destruct (run_calls pred w' t) as [[w'' ans] ok].
      unfold answered. cbn [combine filter snd]. destruct b; cbn [Bool.eqb map fst length]; [|reflexivity].
      now rewrite Nat.add_succ_comm.
  Qed.

  Lemma accumulate_ok {B} (op : W -> B * A -> W * option B) l : forall pre post init w,
    fo_accumulate op (length l) (pre ++ l ++ post) (length pre) init w =
    Ok (fold_left (fun s x => match s with
                              | (w, Some acc) => op w (acc, x)
                              | (w, None) => (w, None)
                              end) l (w, Some init)).
  Proof.
    induction l as [|x t IH]; intros pre post init w; cbn [fo_accumulate fold_left length app]; [reflexivity|].
    rewrite rd_app, bind_Ok. destruct (op w (init, x)) as [w' [r|]].
    - rewrite (snoc pre (t ++ post) x). replace (S (length pre)) with (length (pre ++ [x])) by (rewrite app_length; cbn; lia).
      apply IH.
    - clear IH. induction t as [|y t IH2]; [reflexivity|]. cbn [fold_left]. exact IH2.
  Qed.

  (** find_if: no call after the first hit. *)
  Lemma find_if_ok (pred : W -> A -> W * option bool) l : forall pre post w,
    let r := fo_find_if pred (length l) (pre ++ l ++ post) (length pre) w in
    (exists w' ans, run_calls pred w l = (w', ans, true) /\ Forall (eq false) ans /\ r = Ok (w', Some (length pre + length l))) \/
    (exists k w' ans, k < length l /\ run_calls pred w (firstn (S k) l) = (w', ans ++ [true], true) /\ Forall (eq false) ans /\
       length ans = k /\ r = Ok (w', Some (length pre + k))) \/
    (exists w' ans, run_calls pred w l = (w', ans, false) /\ Forall (eq false) ans /\ r = Ok (w', None)).
  Proof.
    cbv zeta. induction l as [|x t IH]; intros pre post w; cbn [fo_find_if length app].
    - left. exists w, []. split; [reflexivity|]. split; [constructor|]. unfold when; now rewrite ?Nat.add_0_r.
    - rewrite rd_app, bind_Ok. destruct (pred w x) as [w' [[|]|]] eqn:E.
      + right. left. exists 0, w', []. split; [lia|]. cbn [firstn run_calls]. rewrite E. split; [reflexivity|].
        split; [constructor|]. split; [reflexivity|]. unfold when; now rewrite ?Nat.add_0_r.
      + rewrite (snoc pre (t ++ post) x). replace (S (length pre)) with (length (pre ++ [x])) by (rewrite app_length; cbn; lia).
        destruct (IH (pre ++ [x]) post w') as [(w2 & ans & R & F & Q)|[(k & w2 & ans & K & R & F & L & Q)|(w2 & ans & R & F & Q)]]; rewrite Q; clear IH Q.
        * left. exists w2, (false :: ans). cbn [run_calls]. rewrite E, R. split; [reflexivity|]. split; [now constructor|].
          rewrite app_length. cbn. now replace (length pre + 1 + length t) with (length pre + S (length t)) by lia.
        * right. left. exists (S k), w2, (false :: ans). split; [lia|]. cbn [firstn run_calls] in *. rewrite E.
          split; [|split; [now constructor|]].
          { destruct t as [|x2 t]; [cbn in K; lia|]. cbn [firstn] in *. rewrite R. reflexivity. }
          split; [cbn; lia|]. rewrite app_length. cbn. now replace (length pre + 1 + k) with (length pre + S k) by lia.
        * right. right. exists w2, (false :: ans). cbn [run_calls]. rewrite E, R. split; [reflexivity|]. split; [now constructor|reflexivity].
      + right. right. exists w', []. cbn [run_calls]. rewrite E. split; [reflexivity|]. split; [constructor|reflexivity].
  Qed.

  Lemma replace_if_ok (pred : W -> A -> W * option bool) v l : forall pre post w,
    fo_replace_if pred (length l) (pre ++ l ++ post) (length pre) v w =
    let '(w', ans, ok) := run_calls pred w l in
    Ok (pre ++ over (map (fun p : A * bool => if snd p then v else fst p) (combine l ans)) l ++ post, w', when ok tt).
  Proof.
    induction l as [|x t IH]; intros pre post w; cbn [fo_replace_if run_calls length app]; [reflexivity|].
    rewrite rd_app, bind_Ok. destruct (pred w x) as [w' [[|]|]]; [| |reflexivity].
    - rewrite wr_app, bind_Ok.
      rewrite (snoc pre (t ++ post) v). replace (S (length pre)) with (length (pre ++ [v])) by (rewrite app_length; cbn; lia).
      rewrite IH. destruct (run_calls pred w' t) as [[w'' ans] ok]. cbn [combine map snd fst].
      rewrite <- (snoc pre). reflexivity.
    - rewrite (snoc pre (t ++ post) x). replace (S (length pre)) with (length (pre ++ [x])) by (rewrite app_length; cbn; lia).
      rewrite IH. destruct (run_calls pred w' t) as [[w'' ans] ok]. cbn [combine map snd fst].
      rewrite <- (snoc pre). reflexivity.
  Qed.

  (** copy_if to a place after the source with enough room. *)
  Lemma copy_if_after (pred : W -> A -> W * option bool) l : forall pre mid d post w, length l <= length d ->
    fo_copy_if pred (length l) (pre ++ l ++ mid ++ d ++ post) (length pre) (length pre + length l + length mid) w =
    let '(w', ans, ok) := run_calls pred w l in
    Ok (pre ++ l ++ mid ++ over (answered true l ans) d ++ post, w',
        when ok (length pre + length l + length mid + length (answered true l ans))).
  Proof.
    induction l as [|x t IH]; intros pre mid d post w Hd; cbn [fo_copy_if run_calls length app].
    - unfold when; now rewrite ?Nat.add_0_r.
    - rewrite rd_app, bind_Ok. destruct (pred w x) as [w' [[|]|]]; [| |reflexivity].
      + destruct d as [|z d]; [cbn in Hd; lia|]. cbn [app].
        replace (pre ++ x :: t ++ mid ++ z :: d ++ post) with ((pre ++ x :: t) ++ mid ++ z :: d ++ post) by (now rewrite <- app_assoc).
        rewrite wr_at by (rewrite app_length; cbn; lia). rewrite bind_Ok.
        replace ((pre ++ x :: t) ++ mid ++ x :: d ++ post) with ((pre ++ [x]) ++ t ++ (mid ++ [x]) ++ d ++ post)
          by (rewrite <- !app_assoc; reflexivity).
        replace (S (length pre)) with (length (pre ++ [x])) by (rewrite app_length; cbn; lia).
        replace (S (length pre + S (length t) + length mid)) with (length (pre ++ [x]) + length t + length (mid ++ [x]))
          by (rewrite !app_length; cbn; lia).
        rewrite IH by (cbn in Hd; lia). destruct (run_calls pred w' t) as [[w'' ans] ok].
        unfold answered. cbn [combine filter snd Bool.eqb map fst length]. unfold over. cbn [length skipn].
        rewrite <- !app_assoc, !app_length. cbn [app length].
        match goal with |- Ok (_, _, when ok ?p) = Ok (_, _, when ok ?q) => replace p with q by lia end. reflexivity.
      + replace (pre ++ x :: t ++ mid ++ d ++ post) with ((pre ++ [x]) ++ t ++ mid ++ d ++ post) by (now rewrite <- app_assoc).
        replace (length pre + S (length t) + length mid) with (length (pre ++ [x]) + length t + length mid) by (rewrite app_length; cbn; lia).
        replace (S (length pre)) with (length (pre ++ [x])) by (rewrite app_length; cbn; lia).
        rewrite IH by (cbn in Hd; lia). destruct (run_calls pred w' t) as [[w'' ans] ok].
        unfold answered. cbn [combine filter snd Bool.eqb map fst length].
        rewrite <- !app_assoc. reflexivity.
  Qed.

  (** remove_if in place: [k] are the elements kept so far, [g] the elements
      between the result and the next to look at. *)
  Lemma remove_loop (pred : W -> A -> W * option bool) l : forall pre g post w,
    fo_remove_copy_if pred (length l) (pre ++ g ++ l ++ post) (length pre + length g) (length pre) w =
    let '(w', ans, ok) := run_calls pred w l in
    Ok (pre ++ over (answered false l ans) (g ++ l) ++ post, w', when ok (length pre + length (answered false l ans))).
  Proof.
    induction l as [|x t IH]; intros pre g post w; cbn [fo_remove_copy_if run_calls length app].
    - rewrite app_nil_r. unfold when; now rewrite ?Nat.add_0_r.
    - rewrite rd_at by reflexivity. rewrite bind_Ok. destruct (pred w x) as [w' [[|]|]].
      + replace (pre ++ g ++ x :: t ++ post) with (pre ++ (g ++ [x]) ++ t ++ post) by (now rewrite <- app_assoc).
        replace (S (length pre + length g)) with (length pre + length (g ++ [x])) by (rewrite app_length; cbn; lia).
        rewrite IH. destruct (run_calls pred w' t) as [[w'' ans] ok].
        unfold answered. cbn [combine filter snd Bool.eqb]. rewrite <- app_assoc. reflexivity.
      + destruct g as [|z g].
        * cbn [app]. rewrite wr_app, bind_Ok. rewrite (snoc pre (t ++ post) x).
          replace (S (length pre + length (@nil A))) with (length (pre ++ [x]) + length (@nil A)) by (rewrite app_length; cbn; lia).
          replace (S (length pre)) with (length (pre ++ [x])) by (rewrite app_length; cbn; lia).
          specialize (IH (pre ++ [x]) [] post w'). cbn [app] in IH. rewrite IH.
          destruct (run_calls pred w' t) as [[w'' ans] ok].
          unfold answered. cbn [combine filter snd Bool.eqb map fst length]. unfold over. cbn [length skipn app].
          rewrite <- !app_assoc, !app_length. cbn [app length].
          match goal with |- Ok (_, _, when ok ?p) = Ok (_, _, when ok ?q) => replace p with q by lia end. reflexivity.
        * cbn [app]. rewrite wr_app, bind_Ok.
          replace (pre ++ x :: g ++ x :: t ++ post) with ((pre ++ [x]) ++ (g ++ [x]) ++ t ++ post) by (now rewrite <- !app_assoc).
          replace (S (length pre + length (z :: g))) with (length (pre ++ [x]) + length (g ++ [x])) by (rewrite !app_length; cbn; lia).
          replace (S (length pre)) with (length (pre ++ [x])) by (rewrite app_length; cbn; lia).
          rewrite IH. destruct (run_calls pred w' t) as [[w'' ans] ok].
          unfold answered. cbn [combine filter snd Bool.eqb map fst length]. unfold over. cbn [length skipn app].
          rewrite <- !app_assoc, !app_length. cbn [app length].
          match goal with |- Ok (_, _, when ok ?p) = Ok (_, _, when ok ?q) => replace p with q by lia end. reflexivity.
      + unfold over, answered. cbn [combine filter map length skipn app]. rewrite <- (app_assoc g). reflexivity.
  Qed.
  Lemma remove_if_ok (pred : W -> A -> W * option bool) l pre post w :
    fo_remove_if pred (length l) (pre ++ l ++ post) (length pre) w =
    let '(w', ans, ok) := run_calls pred w l in
    Ok (pre ++ over (answered false l ans) l ++ post, w', when ok (length pre + length (answered false l ans))).
  Proof.
    unfold fo_remove_if. pose proof (remove_loop pred l pre [] post w) as H. cbn [app] in H.
    rewrite Nat.add_0_r in H. exact H.
  Qed.

  (** remove_copy_if to a place after the source. *)
  Lemma remove_copy_if_after (pred : W -> A -> W * option bool) l : forall pre mid d post w, length l <= length d ->
    fo_remove_copy_if pred (length l) (pre ++ l ++ mid ++ d ++ post) (length pre) (length pre + length l + length mid) w =
    let '(w', ans, ok) := run_calls pred w l in
    Ok (pre ++ l ++ mid ++ over (answered false l ans) d ++ post, w',
        when ok (length pre + length l + length mid + length (answered false l ans))).
  Proof.
    induction l as [|x t IH]; intros pre mid d post w Hd; cbn [fo_remove_copy_if run_calls length app].
    - unfold when; now rewrite ?Nat.add_0_r.
    - rewrite rd_app, bind_Ok. destruct (pred w x) as [w' [[|]|]]; [| |reflexivity].
      + replace (pre ++ x :: t ++ mid ++ d ++ post) with ((pre ++ [x]) ++ t ++ mid ++ d ++ post) by (now rewrite <- app_assoc).
        replace (length pre + S (length t) + length mid) with (length (pre ++ [x]) + length t + length mid) by (rewrite app_length; cbn; lia).
        replace (S (length pre)) with (length (pre ++ [x])) by (rewrite app_length; cbn; lia).
        rewrite IH by (cbn in Hd; lia). destruct (run_calls pred w' t) as [[w'' ans] ok].
        unfold answered. cbn [combine filter snd Bool.eqb map fst length].
        rewrite <- !app_assoc. reflexivity.
      + destruct d as [|z d]; [cbn in Hd; lia|]. cbn [app].
        replace (pre ++ x :: t ++ mid ++ z :: d ++ post) with ((pre ++ x :: t) ++ mid ++ z :: d ++ post) by (now rewrite <- app_assoc).
        rewrite wr_at by (rewrite app_length; cbn; lia). rewrite bind_Ok.
        replace ((pre ++ x :: t) ++ mid ++ x :: d ++ post) with ((pre ++ [x]) ++ t ++ (mid ++ [x]) ++ d ++ post)
          by (rewrite <- !app_assoc; reflexivity).
        replace (S (length pre)) with (length (pre ++ [x])) by (rewrite app_length; cbn; lia).
        replace (S (length pre + S (length t) + length mid)) with (length (pre ++ [x]) + length t + length (mid ++ [x]))
          by (rewrite !app_length; cbn; lia).
        rewrite IH by (cbn in Hd; lia). destruct (run_calls pred w' t) as [[w'' ans] ok].
        unfold answered. cbn [combine filter snd Bool.eqb map fst length]. unfold over. cbn [length skipn].
        rewrite <- !app_assoc, !app_length. cbn [app length].
        match goal with |- Ok (_, _, when ok ?p) = Ok (_, _, when ok ?q) => replace p with q by lia end. reflexivity.
  Qed.
End P.

(** What [run_calls] means for the order of the calls. *)
Lemma logged_calls {W X Y} (c : W -> X -> W * option Y) l : forall lg w,
  run_calls (logged c) (lg, w) l =
  let '(w', ys, ok) := run_calls c w l in
  (lg ++ firstn (if ok then length l else S (length ys)) l, w', ys, ok).
Proof.
  induction l as [|x t IH]; intros lg w; cbn [run_calls].
  - cbn. now rewrite app_nil_r.
  - unfold logged at 1. cbn [fst snd]. destruct (c w x) as [w' [y|]].
    + rewrite IH. destruct (run_calls c w' t) as [[w'' ys] ok]. rewrite <- app_assoc. destruct ok; reflexivity.
    + reflexivity.
Qed.
Lemma calls_length {W X Y} (c : W -> X -> W * option Y) l : forall w w' ys ok,
  run_calls c w l = (w', ys, ok) -> if ok then length ys = length l else length ys < length l.
Proof.
  induction l as [|x t IH]; intros w w' ys ok; cbn [run_calls].
  - intros H. inversion H. reflexivity.
  - destruct (c w x) as [w1 [y|]].
    + destruct (run_calls c w1 t) as [[w2 ys2] ok2] eqn:E. intros H. inversion H; subst.
      pose proof (IH _ _ _ _ E) as L. destruct ok; cbn; lia.
    + intros H. inversion H. cbn. lia.
Qed.
