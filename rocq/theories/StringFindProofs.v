(** * StringFindProofs *)
From Verif Require Import Base UtilModel UtilProofs StringFindModel StringFindSpec.
From Coq Require Import ZArith ZifyBool ZifyNat.
Local Open Scope Z_scope.

Lemma u64_id x : 0 <= x < 2 ^ 64 -> u64 x = x.
Proof. intros H. unfold u64, two64. now apply Z.mod_small. Qed.
Lemma to_int_id x : -(2 ^ 31) <= x < 2 ^ 31 -> to_int x = x.
Proof.
  intros H. unfold to_int, u32, two32. change (2 ^ 31) with 2147483648 in *. change (2 ^ 32) with 4294967296 in *. change (- 2147483648) with (-2147483648) in *. destruct (Z.le_gt_cases 0 x).
  - rewrite Z.mod_small by lia. replace (x <? 2147483648) with true by lia. reflexivity.
  - replace (x mod 4294967296) with (x + 4294967296).
    + replace (x + 4294967296 <? 2147483648) with false by lia. lia.
    + symmetry. rewrite <- (Z.mod_small (x + 4294967296) 4294967296) by lia.
      replace (x + 4294967296) with (x + 1 * 4294967296) by lia. now rewrite Z.mod_add by lia.
Qed.

(** ** Comparison *)
Lemma memcmp_spec a : forall b, length a = length b ->
  (memcmp a b = 0 <-> a = b) /\ (memcmp a b < 0 -> lex a b) /\ (0 < memcmp a b -> lex b a).
Proof.
  induction a as [|x s IH]; intros [|y t] L; cbn [length] in L; try lia.
  - cbn. split; [tauto|]. lia.
  - cbn [memcmp]. destruct (Z.eqb_spec x y) as [-> |N].
    + destruct (IH t ltac:(lia)) as (A & B & C). split; [|split].
      * rewrite A. split; [intros ->; reflexivity|congruence].
      * intros H. apply lex_eq. auto.
      * intros H. apply lex_eq. auto.
    + split; [split; [lia|congruence]|]. split; intros H; apply lex_lt; lia.
Qed.
Lemma lex_app_r p q t : lex p q -> length p = length q -> forall s, lex (p ++ s) (q ++ t).
Proof.
  intros H. revert t. induction H; intros u L v; cbn [app length] in *; try lia.
  - now apply lex_lt.
  - apply lex_eq. apply IHlex. lia.
Qed.
Lemma lex_prefix p y t : lex p (p ++ y :: t).
Proof. induction p; cbn [app]; [apply lex_nil|apply lex_eq; auto]. Qed.
Lemma lex_irrefl a : ~ lex a a.
Proof. induction a; intros H; inversion H; subst; [lia|auto]. Qed.
Lemma lex_trans a b c : lex a b -> lex b c -> lex a c.
Proof.
  intros H. revert c. induction H; intros c H2; inversion H2; subst.
  - apply lex_nil.
  - apply lex_nil.
  - apply lex_lt. lia.
  - apply lex_lt. lia.
  - apply lex_lt. lia.
  - apply lex_eq. auto.
Qed.
Lemma lex_total a b : lex a b \/ a = b \/ lex b a.
Proof.
  revert b. induction a as [|x s IH]; intros [|y t].
  - right; left; reflexivity.
  - left. constructor.
  - right; right. constructor.
  - destruct (Z.lt_trichotomy x y) as [L|[-> |L]]; [left; now constructor| |right; right; now constructor].
    destruct (IH t) as [L|[-> |L]]; [left; now apply lex_eq|right; left; reflexivity|right; right; now apply lex_eq].
Qed.

Lemma str_compare_cases a b : ssize a < 2 ^ 31 -> ssize b < 2 ^ 31 ->
  (str_compare a b < 0 /\ lex a b) \/ (str_compare a b = 0 /\ a = b) \/ (0 < str_compare a b /\ lex b a).
Proof.
  intros La Lb. unfold str_compare, ssize in *. set (n := Z.to_nat (Z.min (Z.of_nat (length a)) (Z.of_nat (length b)))).
  rewrite to_int_id by lia.
  assert (L : length (firstn n a) = length (firstn n b)) by (rewrite !firstn_length; lia).
  destruct (memcmp_spec _ _ L) as (E & Lt & Gt).
  assert (Ea : a = firstn n a ++ skipn n a) by (symmetry; apply firstn_skipn).
  assert (Eb : b = firstn n b ++ skipn n b) by (symmetry; apply firstn_skipn).
  destruct (Z.eqb_spec (memcmp (firstn n a) (firstn n b)) 0) as [M0|M0].
  - apply E in M0. destruct (Z.lt_trichotomy (Z.of_nat (length a)) (Z.of_nat (length b))) as [H|[H|H]].
    + left. split; [lia|]. assert (n = length a) by lia. rewrite Eb, <- M0. subst n. rewrite H0, firstn_all.
      rewrite H0 in *. destruct (skipn (length a) b) as [|y t] eqn:Sk; [|apply lex_prefix].
      assert (length (skipn (length a) b) = 0)%nat by now rewrite Sk. rewrite skipn_length in H1. lia.
    + right; left. split; [lia|]. rewrite Ea, Eb, M0. f_equal. rewrite !skipn_all2 by lia. reflexivity.
    + right; right. split; [lia|]. assert (n = length b) by lia. rewrite Ea, M0. subst n. rewrite H0, firstn_all.
      rewrite H0 in *. destruct (skipn (length b) a) as [|y t] eqn:Sk; [|apply lex_prefix].
      assert (length (skipn (length b) a) = 0)%nat by now rewrite Sk. rewrite skipn_length in H1. lia.
  - destruct (Z.lt_trichotomy (memcmp (firstn n a) (firstn n b)) 0) as [H|[H|H]]; [|lia|].
    + left. split; [exact H|]. rewrite Ea, Eb. apply lex_app_r; auto.
    + right; right. split; [exact H|]. rewrite Ea, Eb. apply lex_app_r; auto.
Qed.
Lemma str_eq_spec a b : str_eq a b = true <-> a = b.
Proof.
  unfold str_eq, ssize. destruct (Z.eqb_spec (Z.of_nat (length a)) (Z.of_nat (length b))) as [L|L]; cbn [andb].
  - destruct (memcmp_spec a b ltac:(lia)) as (E & _). rewrite Z.eqb_eq. exact E.
  - split; [discriminate|]. intros ->. lia.
Qed.

(** ** Reading *)
Lemma s_at_in s i : 0 <= i < ssize s -> exists c, s_at s i = Ok c /\ byte_at s c i.
Proof.
  unfold ssize, s_at, byte_at. intros H. replace (0 <=? i) with true by lia. unfold rd.
  destruct (nth_error s (Z.to_nat i)) as [c|] eqn:E; [|apply nth_error_None in E; lia].
  rewrite nth_error_app1 by lia. rewrite E. exists c. split; [reflexivity|]. split; [lia|reflexivity].
Qed.
Lemma byte_at_fun s a b i : byte_at s a i -> byte_at s b i -> a = b.
Proof. intros (_ & A) (_ & B). congruence. Qed.
Lemma byte_at_range s c i : byte_at s c i -> 0 <= i < ssize s.
Proof.
  intros (H & E). split; [exact H|]. unfold ssize. assert (Z.to_nat i < length s)%nat by (apply nth_error_Some; congruence). lia.
Qed.

(** ** find of a byte *)
Lemma find_from_ok s c fuel : forall i, 0 <= i -> ssize s - i < Z.of_nat fuel ->
  exists j, find_from s i c fuel = Ok j /\ j <= ssize s /\ (i <= ssize s -> i <= j) /\ (forall k, i <= k < j -> ~ byte_at s c k) /\ (j < ssize s -> byte_at s c j).
Proof.
  induction fuel as [|f IH]; intros i Hi Hf; cbn [find_from].
  - replace (i <? ssize s) with false by lia. exists (ssize s). split; [reflexivity|]. split; [lia|]. split; [lia|]. split; [|lia]. intros k Hk. lia.
  - destruct (Z.ltb_spec i (ssize s)) as [L|L].
    + destruct (s_at_in s i ltac:(lia)) as (x & E & B). rewrite E. cbn [bind]. destruct (Z.eqb_spec x c) as [-> |N].
      * exists i. split; [reflexivity|]. split; [lia|]. split; [lia|]. split; [intros k Hk; lia|auto].
      * destruct (IH (i + 1) ltac:(lia) ltac:(lia)) as (j & Ej & J1 & J2 & J3 & J4). exists j. split; [exact Ej|]. split; [exact J1|].
        split; [lia|]. split; [|exact J4]. intros k Hk. destruct (Z.eq_dec k i) as [-> |Nk]; [|apply J3; lia].
        intros B2. exact (N (byte_at_fun _ _ _ _ B B2)).
    + exists (ssize s). split; [reflexivity|]. split; [lia|]. split; [lia|]. split; [|lia].
      intros k Hk B. apply byte_at_range in B. lia.
Qed.
Lemma ufind_ok s i c : 0 <= i -> exists j, ufind s i c = Ok j /\ j <= ssize s /\ (i <= ssize s -> i <= j) /\ (forall k, i <= k < j -> ~ byte_at s c k) /\ (j < ssize s -> byte_at s c j).
Proof. intros H. apply find_from_ok; [exact H|]. unfold ssize. lia. Qed.

Lemma find_char_ok s c pos : 0 <= pos -> exists r, str_find_char s c pos = Ok r /\ is_first (byte_at s c) pos r /\ (r <> npos -> r < ssize s).
Proof.
  intros Hp. unfold str_find_char, iat. destruct (ufind_ok s (Z.min pos (ssize s)) c) as (j & E & J1 & J2 & J3 & J4); [unfold ssize; lia|].
  rewrite E. cbn [bind]. eexists. split; [reflexivity|]. destruct (Z.ltb_spec j (ssize s)) as [L|L].
  - split; [|lia]. left. split; [lia|]. split; [auto|]. intros k Hk. apply J3. lia.
  - split; [|congruence]. right. split; [reflexivity|]. intros k Hk B. pose proof (byte_at_range _ _ _ B). apply (J3 k); [lia|exact B].
Qed.
Lemma find_char_in s c : ssize s <= npos -> exists r, str_find_char s c 0 = Ok r /\ (r <> npos <-> In c s).
Proof.
  intros Hs. destruct (find_char_ok s c 0 ltac:(lia)) as (r & E & [(R0 & B & _)|(-> & F)] & _); exists r || exists npos; (split; [exact E|]).
  - pose proof (byte_at_range _ _ _ B). split; [|intros _; lia]. intros _. destruct B as (_ & B). eapply nth_error_In; eauto.
  - split; [congruence|]. intros I. exfalso. apply In_nth_error in I. destruct I as (n & I). apply (F (Z.of_nat n)); [lia|].
    split; [lia|]. now rewrite Nat2Z.id.
Qed.

(** ** find of a string *)
Lemma occurs_byte s p i k c : occurs s p i -> byte_at p c k -> byte_at s c (i + k).
Proof.
  intros (Hi & a & b & -> & La) (Hk & E). split; [lia|].
  assert (Z.to_nat k < length p)%nat by (apply nth_error_Some; congruence).
  rewrite nth_error_app2 by lia. rewrite nth_error_app1 by lia. rewrite <- E. f_equal. lia.
Qed.
Lemma occurs_range s p i : occurs s p i -> 0 <= i /\ i + ssize p <= ssize s.
Proof. intros (Hi & a & b & -> & La). split; [exact Hi|]. unfold ssize. rewrite !app_length. lia. Qed.
Lemma match_at_ok s p o : 0 <= o -> o + ssize p <= ssize s -> exists b, match_at s p o = Ok b /\ (b = true <-> occurs s p o).
Proof.
  intros Ho Hl. unfold match_at. replace ((0 <=? o) && (o + ssize p <=? ssize s + 1)) with true by lia.
  eexists. split; [reflexivity|]. unfold ssize in Hl. rewrite Z.eqb_eq.
  assert (E : firstn (length p) (skipn (Z.to_nat o) (s ++ [0])) = firstn (length p) (skipn (Z.to_nat o) s)).
  { rewrite skipn_app, firstn_app. replace (length p - length (skipn (Z.to_nat o) s))%nat with 0%nat by (rewrite skipn_length; lia).
    cbn [firstn]. apply app_nil_r. }
  rewrite E. destruct (memcmp_spec (firstn (length p) (skipn (Z.to_nat o) s)) p) as (M & _); [rewrite firstn_length, skipn_length; lia|].
  rewrite M. split.
  - intros Ep. split; [exact Ho|]. exists (firstn (Z.to_nat o) s), (skipn (length p) (skipn (Z.to_nat o) s)).
    split; [|rewrite firstn_length; lia]. rewrite <- Ep at 1. rewrite firstn_skipn. now rewrite firstn_skipn.
  - intros (_ & a & b & -> & La). rewrite <- La, skipn_app, skipn_all, Nat.sub_diag. cbn [app skipn].
    rewrite firstn_app, firstn_all, Nat.sub_diag. cbn [firstn]. apply app_nil_r.
Qed.
Lemma prev_occ_ok p c k : (k <= length p)%nat -> exists r, prev_occ p c k = Ok r /\ -1 <= r < Z.of_nat k /\ forall j, r < j < Z.of_nat k -> ~ byte_at p c j.
Proof.
  induction k as [|k IH]; intros Hk; cbn [prev_occ].
  - exists (-1). split; [reflexivity|]. split; [lia|]. intros j Hj. lia.
  - destruct (s_at_in p (Z.of_nat k)) as (x & E & B); [unfold ssize; lia|]. rewrite E. cbn [bind]. destruct (Z.eqb_spec x c) as [-> |N].
    + exists (Z.of_nat k). split; [reflexivity|]. split; [lia|]. intros j Hj. lia.
    + destruct (IH ltac:(lia)) as (r & Er & Hr & F). exists r. split; [exact Er|]. split; [lia|].
      intros j Hj B2. destruct (Z.eq_dec j (Z.of_nat k)) as [-> |Nj]; [exact (N (byte_at_fun _ _ _ _ B B2))|].
      apply (F j); [lia|exact B2].
Qed.
Lemma find_loop_ok s p c last pos : byte_at p c (ssize p - 1) -> -1 <= last < ssize p - 1 ->
  (forall j, last < j < ssize p - 1 -> ~ byte_at p c j) -> 0 <= pos ->
  forall fuel i, pos + (ssize p - 1) <= i -> ssize s - i < Z.of_nat fuel -> (0 < fuel)%nat ->
  (forall k, pos <= k < i - (ssize p - 1) -> ~ occurs s p k) ->
  exists r, find_loop s p (ssize p - 1) c (ssize p - 1 - last) i fuel = Ok r /\ is_first (occurs s p) pos r.
Proof.
  intros Bc Hlast Hno Hpos. set (endi := ssize p - 1) in *. pose proof (byte_at_range _ _ _ Bc) as Rc.
  induction fuel as [|f IH]; intros i Hi Hf Hf0 Hk; [lia|]. cbn [find_loop].
  assert (Hend : forall k, occurs s p k -> byte_at s c (k + endi)) by (intros k O; eapply occurs_byte; eauto).
  destruct (Z.ltb_spec i (ssize s)) as [L|L].
  - destruct (ufind_ok s i c ltac:(lia)) as (j & E & J1 & J2 & J3 & J4). rewrite E. cbn [bind].
    assert (Hk2 : forall k, pos <= k < j - endi -> ~ occurs s p k).
    { intros k Hk1 O. destruct (Z.lt_ge_cases k (i - endi)) as [H|H]; [apply (Hk k); [lia|exact O]|].
      apply (J3 (k + endi)); [lia|]. auto. }
    destruct (Z.ltb_spec j (ssize s)) as [Lj|Lj].
    + destruct (match_at_ok s p (j - endi) ltac:(lia) ltac:(lia)) as (b & Eb & Hb). rewrite Eb. cbn [bind]. destruct b.
      * exists (j - endi). split; [reflexivity|]. left. split; [lia|]. split; [now apply Hb|]. exact Hk2.
      * apply IH; [lia|lia|lia|]. intros k Hk1 O. destruct (Z.lt_trichotomy k (j - endi)) as [H|[-> |H]].
        { apply (Hk2 k); [lia|exact O]. }
        { apply Hb in O. discriminate. }
        (* the byte at j is c, at pattern index j - k *)
        destruct (s_at_in p (j - k) ltac:(lia)) as (x & Ex & Bx). pose proof (occurs_byte _ _ _ _ _ O Bx) as Bs.
        replace (k + (j - k)) with j in Bs by lia. rewrite (byte_at_fun _ _ _ _ Bs (J4 Lj)) in Bx.
        apply (Hno (j - k)); [lia|exact Bx].
    + exists npos. split; [reflexivity|]. right. split; [reflexivity|]. intros k Hk1 O. pose proof (occurs_range _ _ _ O).
      apply (Hk2 k); [lia|exact O].
  - exists npos. split; [reflexivity|]. right. split; [reflexivity|]. intros k Hk1 O. pose proof (occurs_range _ _ _ O).
    apply (Hk k); [lia|exact O].
Qed.
Lemma str_find_ok s p pos : 0 <= pos < 2 ^ 63 -> ssize s < 2 ^ 31 -> p <> [] ->
  exists r, str_find s p pos = Ok r /\ is_first (occurs s p) pos r.
Proof.
  intros Hp Hs Hne. assert (Lp : 0 < ssize p) by (unfold ssize; destruct p; [congruence|cbn [length]; lia]).
  unfold str_find. replace (ssize p =? 0) with false by lia. cbn [orb].
  destruct (Z.le_gt_cases pos (ssize s)) as [L|L].
  - rewrite u64_id by lia. destruct (Z.ltb_spec (ssize s - pos) (ssize p)) as [H|H].
    + exists npos. split; [reflexivity|]. right. split; [reflexivity|]. intros k Hk O. pose proof (occurs_range _ _ _ O). lia.
    + destruct (s_at_in p (ssize p - 1) ltac:(lia)) as (c & Ec & Bc). rewrite Ec. cbn [bind].
      destruct (prev_occ_ok p c (length p - 1) ltac:(lia)) as (last & El & Hl & Hno). rewrite El. cbn [bind].
      unfold iat. rewrite Z.min_l by lia. unfold ssize in Hl, Hno.
      apply find_loop_ok; try lia; auto; try (unfold ssize in *; lia).
      intros j Hj. apply Hno. unfold ssize in Hj. lia.
  - destruct (u64 (ssize s - pos) <? ssize p) eqn:Eu.
    + exists npos. split; [reflexivity|]. right. split; [reflexivity|]. intros k Hk O. pose proof (occurs_range _ _ _ O). lia.
    + destruct (s_at_in p (ssize p - 1) ltac:(lia)) as (c & Ec & Bc). rewrite Ec. cbn [bind].
      destruct (prev_occ_ok p c (length p - 1) ltac:(lia)) as (last & El & Hl & Hno). rewrite El. cbn [bind].
      unfold iat. rewrite Z.min_r by lia. cbn [find_loop]. replace (ssize s + (ssize p - 1) <? ssize s) with false by lia.
      exists npos. split; [reflexivity|]. right. split; [reflexivity|]. intros k Hk O. pose proof (occurs_range _ _ _ O). lia.
Qed.
Lemma str_find_empty s pos : str_find s [] pos = Ok npos.
Proof. reflexivity. Qed.

(** ** find_first_of, find_first_not_of *)
Definition want_at (s set : list Z) (want : bool) (i : Z) : Prop := if want then one_of s set i else none_of s set i.
Lemma want_range s set w i : want_at s set w i -> 0 <= i < ssize s.
Proof. destruct w; intros (c & B & _); eapply byte_at_range; eauto. Qed.
Lemma want_dec s set w i c r : byte_at s c i -> (r <> npos <-> In c set) -> Bool.eqb (negb (r =? npos)) w = true <-> want_at s set w i.
Proof.
  intros B H. destruct (Z.eqb_spec r npos) as [E|N]; destruct w; cbn [negb Bool.eqb want_at].
  - split; [discriminate|]. intros (c' & B' & I'). rewrite (byte_at_fun _ _ _ _ B' B) in I'. apply H in I'. congruence.
  - split; [|reflexivity]. intros _. exists c. split; [exact B|]. intros I'. apply H in I'. congruence.
  - split; [|reflexivity]. intros _. exists c. split; [exact B|]. now apply H.
  - split; [discriminate|]. intros (c' & B' & I'). rewrite (byte_at_fun _ _ _ _ B' B) in I'. exfalso. apply I'. now apply H.
Qed.
Lemma first_loop_ok s set w : ssize set <= npos -> forall fuel i, 0 <= i -> ssize s - i < Z.of_nat fuel ->
  exists r, first_loop s set w i fuel = Ok r /\ is_first (want_at s set w) i r.
Proof.
  intros Hset. induction fuel as [|f IH]; intros i Hi Hf; cbn [first_loop].
  - replace (i <? ssize s) with false by lia. exists npos. split; [reflexivity|]. right. split; [reflexivity|]. intros k Hk O. apply want_range in O. lia.
  - destruct (Z.ltb_spec i (ssize s)) as [L|L].
    + destruct (s_at_in s i ltac:(lia)) as (c & E & B). rewrite E. cbn [bind].
      destruct (find_char_in set c Hset) as (r & Er & Hr). rewrite Er. cbn [bind].
      pose proof (want_dec s set w i c r B Hr) as D. destruct (Bool.eqb (negb (r =? npos)) w).
      * exists i. split; [reflexivity|]. left. split; [lia|]. split; [now apply D|]. intros k Hk; lia.
      * destruct (IH (i + 1) ltac:(lia) ltac:(lia)) as (r' & E' & R'). exists r'. split; [exact E'|].
        assert (Ni : ~ want_at s set w i) by (intros W; apply D in W; discriminate).
        destruct R' as [(R1 & R2 & R3)|(-> & R3)].
        -- left. split; [lia|]. split; [exact R2|]. intros k Hk. destruct (Z.eq_dec k i) as [-> |]; [exact Ni|apply R3; lia].
        -- right. split; [reflexivity|]. intros k Hk. destruct (Z.eq_dec k i) as [-> |]; [exact Ni|apply R3; lia].
    + exists npos. split; [reflexivity|]. right. split; [reflexivity|]. intros k Hk O. apply want_range in O. lia.
Qed.
Lemma first_clip s set w pos r : 0 <= pos -> is_first (want_at s set w) (Z.min pos (ssize s)) r -> is_first (want_at s set w) pos r.
Proof.
  intros Hp. destruct (Z.le_gt_cases pos (ssize s)); [rewrite Z.min_l by lia; auto|]. rewrite Z.min_r by lia.
  intros [(A & W & _)|(-> & F)].
  - apply want_range in W. exfalso. lia.
  - right. split; [reflexivity|]. intros k Hk. apply F. lia.
Qed.

Lemma first_any_ok s set w pos : 0 <= pos -> ssize set <= npos ->
  exists r, first_loop s set w (Z.min pos (ssize s)) (S (length s)) = Ok r /\ is_first (want_at s set w) pos r.
Proof.
  intros Hp Hset. destruct (first_loop_ok s set w Hset (S (length s)) (Z.min pos (ssize s))) as (r & E & R); [unfold ssize; lia|unfold ssize; lia|].
  exists r. split; [exact E|]. now apply first_clip.
Qed.

(** ** Backwards *)
Lemma start_back_ok s pos : s <> [] -> 0 <= pos < 2 ^ 64 -> ssize s < 2 ^ 31 -> start_back s pos = Z.min pos (ssize s - 1).
Proof.
  intros N Hp Hs. assert (0 < ssize s) by (unfold ssize; destruct s; [congruence|cbn [length]; lia]).
  unfold start_back. rewrite u64_id by lia. apply to_int_id. lia.
Qed.
Lemma is_last_clip (P : Z -> Prop) m pos r : (forall k, P k -> k <= m) -> is_last P (Z.min pos m) r -> is_last P pos r.
Proof.
  intros H [(A & B & C)|(-> & C)].
  - left. split; [lia|]. split; [exact B|]. intros k Hk Pk. pose proof (H k Pk). apply (C k); [lia|exact Pk].
  - right. split; [reflexivity|]. intros k Hk Pk. pose proof (H k Pk). apply (C k); [lia|exact Pk].
Qed.
Lemma rfind_loop_ok s c : forall fuel i, i < ssize s -> i < Z.of_nat fuel ->
  exists r, rfind_loop s c i fuel = Ok r /\ is_last (byte_at s c) i r.
Proof.
  induction fuel as [|f IH]; intros i Hi Hf; cbn [rfind_loop].
  - replace (0 <=? i) with false by lia. exists npos. split; [reflexivity|]. right. split; [reflexivity|]. intros k Hk B. apply byte_at_range in B. lia.
  - destruct (Z.leb_spec 0 i) as [L|L].
    + destruct (s_at_in s i ltac:(lia)) as (x & E & B). rewrite E. cbn [bind]. destruct (Z.eqb_spec x c) as [-> |N].
      * exists i. split; [reflexivity|]. left. split; [lia|]. split; [exact B|]. intros k Hk. lia.
      * destruct (IH (i - 1) ltac:(lia) ltac:(lia)) as (r & Er & R). exists r. split; [exact Er|].
        assert (Ni : ~ byte_at s c i) by (intros B2; exact (N (byte_at_fun _ _ _ _ B B2))).
        destruct R as [(R1 & R2 & R3)|(-> & R3)].
        -- left. split; [lia|]. split; [exact R2|]. intros k Hk. destruct (Z.eq_dec k i) as [-> |]; [exact Ni|apply R3; lia].
        -- right. split; [reflexivity|]. intros k Hk. destruct (Z.eq_dec k i) as [-> |]; [exact Ni|apply R3; lia].
    + exists npos. split; [reflexivity|]. right. split; [reflexivity|]. intros k Hk B. apply byte_at_range in B. lia.
Qed.
Lemma rfind_char_ok s c pos : s <> [] -> 0 <= pos < 2 ^ 64 -> ssize s < 2 ^ 31 ->
  exists r, str_rfind_char s c pos = Ok r /\ is_last (byte_at s c) pos r.
Proof.
  intros N Hp Hs. assert (0 < ssize s) by (unfold ssize; destruct s; [congruence|cbn [length]; lia]).
  unfold str_rfind_char. rewrite start_back_ok by auto.
  destruct (rfind_loop_ok s c (S (Z.to_nat (Z.min pos (ssize s - 1) + 1))) (Z.min pos (ssize s - 1))) as (r & E & R); [lia|lia|].
  exists r. split; [exact E|]. eapply is_last_clip; [|exact R]. intros k B. apply byte_at_range in B. lia.
Qed.
Lemma last_loop_ok s set w : ssize set <= npos -> forall fuel i, i < ssize s -> i < Z.of_nat fuel ->
  exists r, last_loop s set w i fuel = Ok r /\ is_last (want_at s set w) i r.
Proof.
  intros Hset. induction fuel as [|f IH]; intros i Hi Hf; cbn [last_loop].
  - replace (0 <=? i) with false by lia. exists npos. split; [reflexivity|]. right. split; [reflexivity|]. intros k Hk B. apply want_range in B. lia.
  - destruct (Z.leb_spec 0 i) as [L|L].
    + destruct (s_at_in s i ltac:(lia)) as (c & E & B). rewrite E. cbn [bind].
      destruct (find_char_in set c Hset) as (r & Er & Hr). rewrite Er. cbn [bind].
      pose proof (want_dec s set w i c r B Hr) as D. destruct (Bool.eqb (negb (r =? npos)) w).
      * exists i. split; [reflexivity|]. left. split; [lia|]. split; [now apply D|]. intros k Hk. lia.
      * destruct (IH (i - 1) ltac:(lia) ltac:(lia)) as (r' & Er' & R). exists r'. split; [exact Er'|].
        assert (Ni : ~ want_at s set w i) by (intros W; apply D in W; discriminate).
        destruct R as [(R1 & R2 & R3)|(-> & R3)].
        -- left. split; [lia|]. split; [exact R2|]. intros k Hk. destruct (Z.eq_dec k i) as [-> |]; [exact Ni|apply R3; lia].
        -- right. split; [reflexivity|]. intros k Hk. destruct (Z.eq_dec k i) as [-> |]; [exact Ni|apply R3; lia].
    + exists npos. split; [reflexivity|]. right. split; [reflexivity|]. intros k Hk B. apply want_range in B. lia.
Qed.
Lemma last_any_ok s set w pos : s <> [] -> 0 <= pos < 2 ^ 64 -> ssize s < 2 ^ 31 -> ssize set <= npos ->
  exists r, last_loop s set w (start_back s pos) (S (Z.to_nat (start_back s pos + 1))) = Ok r /\ is_last (want_at s set w) pos r.
Proof.
  intros N Hp Hs Hset. assert (0 < ssize s) by (unfold ssize; destruct s; [congruence|cbn [length]; lia]).
  rewrite start_back_ok by auto.
  destruct (last_loop_ok s set w Hset (S (Z.to_nat (Z.min pos (ssize s - 1) + 1))) (Z.min pos (ssize s - 1))) as (r & E & R); [lia|lia|].
  exists r. split; [exact E|]. eapply is_last_clip; [|exact R]. intros k B. apply want_range in B. lia.
Qed.
(** On an empty string these functions read at INT_MAX (pos = npos). *)
Lemma empty_start : start_back [] npos = npos.
Proof. reflexivity. Qed.
Lemma empty_at : s_at [] npos = UB.
Proof.
  unfold s_at. replace (0 <=? npos) with true by reflexivity. unfold rd.
  replace (nth_error ([] ++ [0]) (Z.to_nat npos)) with (@None Z); [reflexivity|].
  symmetry. apply nth_error_None. cbn [app length]. unfold npos. lia.
Qed.
Lemma rfind_empty c : str_rfind_char [] c npos = UB.
Proof.
  unfold str_rfind_char. rewrite empty_start. cbn [rfind_loop]. replace (0 <=? npos) with true by reflexivity.
  rewrite empty_at. reflexivity.
Qed.
Lemma last_empty set w : last_loop [] set w (start_back [] npos) (S (Z.to_nat (start_back [] npos + 1))) = UB.
Proof.
  rewrite empty_start. cbn [last_loop]. replace (0 <=? npos) with true by reflexivity. rewrite empty_at. reflexivity.
Qed.

(** ** rfind of a string *)
Lemma back_match_ok s p d : ssize p - 1 <= d < ssize s -> forall k i, 0 <= i -> i + Z.of_nat k = ssize p ->
  (forall j, 0 <= j < i -> exists c, byte_at p c (ssize p - 1 - j) /\ byte_at s c (d - j)) ->
  exists r, back_match s p d k i = Ok r /\ i <= r <= ssize p /\
   (forall j, 0 <= j < r -> exists c, byte_at p c (ssize p - 1 - j) /\ byte_at s c (d - j)) /\
   (r < ssize p -> exists c c', byte_at p c (ssize p - 1 - r) /\ byte_at s c' (d - r) /\ c <> c').
Proof.
  intros Hd. induction k as [|k IH]; intros i Hi Hk H; cbn [back_match].
  - exists i. split; [reflexivity|]. split; [lia|]. split; [exact H|lia].
  - destruct (s_at_in p (ssize p - 1 - i) ltac:(lia)) as (x & Ex & Bx). rewrite Ex. cbn [bind].
    destruct (s_at_in s (d - i) ltac:(lia)) as (y & Ey & By). rewrite Ey. cbn [bind].
    destruct (Z.eqb_spec x y) as [-> |N].
    + destruct (IH (i + 1) ltac:(lia) ltac:(lia)) as (r & Er & R1 & R2).
      { intros j Hj. destruct (Z.eq_dec j i) as [-> |]; [exists y; auto|apply H; lia]. }
      exists r. split; [exact Er|]. split; [lia|exact R2].
    + exists i. split; [reflexivity|]. split; [lia|]. split; [exact H|]. intros _. exists x, y. auto.
Qed.
Lemma nth_error_skipn' {A} (l : list A) n i : nth_error (skipn n l) i = nth_error l (n + i).
Proof. revert l. induction n as [|n IH]; intros [|x l]; cbn; auto. destruct i; reflexivity. Qed.
Lemma nth_error_firstn' {A} (l : list A) n i : (i < n)%nat -> nth_error (firstn n l) i = nth_error l i.
Proof. revert l i. induction n as [|n IH]; intros [|x l] [|i] H; cbn; auto; try lia. apply IH. lia. Qed.
Lemma nth_error_ext {A} (a b : list A) : length a = length b -> (forall i, (i < length a)%nat -> nth_error a i = nth_error b i) -> a = b.
Proof.
  revert b. induction a as [|x a IH]; intros [|y b] L H; cbn [length] in L; try lia; [reflexivity|].
  pose proof (H 0%nat ltac:(cbn; lia)) as E. cbn in E. injection E as ->. f_equal. apply IH; [lia|].
  intros i Hi. exact (H (S i) ltac:(cbn; lia)).
Qed.
Lemma occurs_of_bytes s p o : 0 <= o -> o + ssize p <= ssize s ->
  (forall k, 0 <= k < ssize p -> exists c, byte_at p c k /\ byte_at s c (o + k)) -> occurs s p o.
Proof.
  intros Ho Hl H. split; [exact Ho|]. unfold ssize in *.
  exists (firstn (Z.to_nat o) s), (skipn (length p) (skipn (Z.to_nat o) s)). split; [|rewrite firstn_length; lia].
  assert (E : p = firstn (length p) (skipn (Z.to_nat o) s)).
  { apply nth_error_ext; [rewrite firstn_length, skipn_length; lia|]. intros i Hi.
    destruct (H (Z.of_nat i) ltac:(lia)) as (c & (_ & A) & (_ & B)). rewrite Nat2Z.id in A. rewrite A.
    rewrite nth_error_firstn' by lia. rewrite nth_error_skipn'.
    replace (Z.to_nat o + i)%nat with (Z.to_nat (o + Z.of_nat i)) by lia. now rewrite B. }
  rewrite E at 1. rewrite firstn_skipn. now rewrite firstn_skipn.
Qed.
Lemma back_match_occurs s p d : p <> [] -> ssize p - 1 <= d < ssize s ->
  exists r, back_match s p d (length p) 0 = Ok r /\ 0 <= r <= ssize p /\ (r = ssize p <-> occurs s p (d + 1 - ssize p)).
Proof.
  intros Hne Hd. destruct (back_match_ok s p d Hd (length p) 0) as (r & Er & R1 & R2 & R3); [lia|unfold ssize; lia|intros j Hj; lia|].
  exists r. split; [exact Er|]. split; [lia|]. split.
  - intros ->. apply occurs_of_bytes; [lia|lia|]. intros k Hk.
    destruct (R2 (ssize p - 1 - k) ltac:(lia)) as (c & A & B). exists c.
    replace (ssize p - 1 - (ssize p - 1 - k)) with k in A by lia.
    replace (d - (ssize p - 1 - k)) with (d + 1 - ssize p + k) in B by lia. auto.
  - intros O. destruct (Z.eq_dec r (ssize p)) as [E|N]; [exact E|exfalso].
    destruct (R3 ltac:(lia)) as (c & c' & A & B & Nc). pose proof (occurs_byte _ _ _ _ _ O A) as B'.
    replace (d + 1 - ssize p + (ssize p - 1 - r)) with (d - r) in B' by lia. exact (Nc (byte_at_fun _ _ _ _ B' B)).
Qed.
Lemma rfind_str_loop_ok s p : p <> [] -> forall fuel d, d < ssize s -> d - (ssize p - 1) + 1 < Z.of_nat fuel -> (1 < fuel)%nat ->
  exists r, rfind_str_loop s p d 0 fuel = Ok r /\ is_last (fun i => occurs s p i /\ 2 <= i) (d + 1 - ssize p) r.
Proof.
  intros Hne. assert (Lp : 0 < ssize p) by (unfold ssize; destruct p; [congruence|cbn [length]; lia]).
  induction fuel as [|f IH]; intros d Hd Hf Hf1; [lia|]. cbn [rfind_str_loop].
  replace (0 <? ssize p) with true by lia. rewrite andb_true_r.
  destruct (Z.ltb_spec (ssize p - 1) d) as [L|L].
  - destruct (back_match_occurs s p d Hne ltac:(lia)) as (r & Er & R1 & R2). rewrite Er. cbn [bind].
    destruct (Z.eq_dec r (ssize p)) as [E|N].
    + subst r. destruct f as [|f]; [lia|]. cbn [rfind_str_loop]. rewrite Z.ltb_irrefl, andb_false_r.
      assert (O : occurs s p (d + 1 - ssize p)) by now apply R2.
      eexists. split; [reflexivity|]. destruct (Z.ltb_spec (ssize p - 1) (d - 1)) as [L2|L2].
      * left. replace (d - 1 + 2 - ssize p) with (d + 1 - ssize p) by lia. split; [lia|]. split; [split; [exact O|lia]|].
        intros k Hk. lia.
      * right. split; [reflexivity|]. intros k Hk (_ & K2). lia.
    + assert (No : ~ occurs s p (d + 1 - ssize p)) by (intros O; apply R2 in O; congruence).
      assert (Eq : rfind_str_loop s p (d - 1) r f = rfind_str_loop s p (d - 1) 0 f).
      { destruct f; [reflexivity|]. cbn [rfind_str_loop]. replace (r <? ssize p) with true by lia. now replace (0 <? ssize p) with true by lia. }
      rewrite Eq. destruct (IH (d - 1) ltac:(lia) ltac:(lia) ltac:(lia)) as (r' & Er' & R'). exists r'. split; [exact Er'|].
      destruct R' as [(A & B & C)|(-> & C)].
      * left. split; [lia|]. split; [exact B|]. intros k Hk. destruct (Z.eq_dec k (d + 1 - ssize p)) as [-> |]; [tauto|apply C; lia].
      * right. split; [reflexivity|]. intros k Hk. destruct (Z.eq_dec k (d + 1 - ssize p)) as [-> |]; [tauto|apply C; lia].
  - exists npos. split; [reflexivity|]. right. split; [reflexivity|]. intros k Hk (_ & K2). lia.
Qed.
Lemma str_rfind_ok s p pos : p <> [] -> 0 <= pos ->
  exists r, str_rfind s p pos = Ok r /\ is_last (fun i => occurs s p i /\ 2 <= i) (Z.min pos (ssize s) - ssize p) r.
Proof.
  intros Hne Hp. assert (Lp : 0 < ssize p) by (unfold ssize; destruct p; [congruence|cbn [length]; lia]).
  unfold str_rfind, iat. destruct (rfind_str_loop_ok s p Hne (S (S (length s))) (Z.min pos (ssize s) - 1)) as (r & E & R); try (unfold ssize in *; lia).
  exists r. split; [exact E|]. replace (Z.min pos (ssize s) - ssize p) with (Z.min pos (ssize s) - 1 + 1 - ssize p) by lia. exact R.
Qed.
(** The empty pattern: one past the searched part. *)
Lemma str_rfind_empty s pos : 0 < pos -> s <> [] -> str_rfind s [] pos = Ok (Z.min pos (ssize s) + 1).
Proof.
  intros Hp Hs. assert (0 < ssize s) by (unfold ssize; destruct s; [congruence|cbn [length]; lia]).
  unfold str_rfind, iat. cbn [rfind_str_loop]. change (ssize []) with 0. cbn [Z.ltb]. rewrite andb_false_r.
  replace (0 - 1 <? Z.min pos (ssize s) - 1) with true by lia. f_equal. lia.
Qed.
