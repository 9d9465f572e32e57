(** * ExcProofs *)
From Verif Require Import Base UtilModel UtilSpec UtilProofs StoreModel VectorModel VectorSpec VectorProofs.
From Verif Require Import Utf8Model Utf8Spec Utf8Proofs StreamModel StreamSpec StreamProofs SerialModel SerialTypes SerialSpec SerialProofs SerialTypesProofs.
From Verif Require Import ExcModel ExcSpec.
From Coq Require Import ZArith ZifyBool ZifyNat.
Local Open Scope Z_scope.

(** ** Pieces of what is written *)
Definition wch (P : Z -> Prop) (w : io ostream unit) (e : Z -> list Z) : Prop :=
  forall s, o_inside s -> oaddr s mod 8 = 0 -> P (opos s) -> fits s (e (opos s)) -> w s = Ok (o_after s (e (opos s)), Val tt).
Definition rch {A} (P : Z -> Prop) (m : Z) (r : io istream A) (a : A) (e : Z -> list Z) : Prop :=
  forall pre post st ex, P (zlen pre) -> m <= zlen post -> zlen (pre ++ e (zlen pre) ++ post) < 2 ^ 63 ->
    r (rdr pre (e (zlen pre) ++ post) st ex) = Ok (rdr (pre ++ e (zlen pre)) post st ex, Val a).
Definition cat (e1 e2 : Z -> list Z) : Z -> list Z := fun p => e1 p ++ e2 (p + zlen (e1 p)).
Definition A8 (p : Z) : Prop := p mod 8 = 0.
Definition A4 (p : Z) : Prop := p mod 8 = 4.
Definition Any (p : Z) : Prop := True.

Lemma wch_seq P Q w1 w2 e1 e2 : wch P w1 e1 -> wch Q w2 e2 -> (forall p, 0 <= p -> P p -> Q (p + zlen (e1 p))) ->
  wch P (_ <~ w1 ;; w2) (cat e1 e2).
Proof.
  intros H1 H2 HQ s Hs Ha HP Hf. unfold cat in *. unfold iobind.
  rewrite H1; [|auto..|exact (fits_l _ _ _ Hf)]. cbn [bind].
  rewrite H2; cbn [o_after opos oaddr].
  - fold (zlen (e1 (opos s))). now rewrite o_after_app.
  - exact (after_inside _ _ _ Hs Hf).
  - exact Ha.
  - apply HQ; [unfold o_inside in Hs; lia|exact HP].
  - exact (fits_r _ _ _ Hs Hf).
Qed.
Lemma rch_seq {A B} P Q m1 m2 (r1 : io istream A) (k : A -> io istream B) a b e1 e2 :
  rch P m1 r1 a e1 -> rch Q m2 (k a) b e2 -> (forall p, 0 <= p -> P p -> Q (p + zlen (e1 p))) ->
  (forall p, 0 <= p -> P p -> m1 <= m2 + zlen (e2 (p + zlen (e1 p)))) ->
  rch P m2 (x <~ r1 ;; k x) b (cat e1 e2).
Proof.
  intros H1 H2 HQ Hm pre post st ex HP Hp H. unfold cat in *. unfold iobind. rewrite <- app_assoc in H |- *.
  pose proof (zlen_nonneg pre) as H0. specialize (Hm _ H0 HP). specialize (HQ _ H0 HP).
  rewrite H1; [|exact HP| |exact H].
  - cbn [bind]. rewrite <- zlen_app in *. rewrite app_assoc in H. rewrite H2 by auto. now rewrite <- app_assoc.
  - rewrite zlen_app. lia.
Qed.
Lemma rch_ret {A} P m (a : A) : rch P m (ret a) a (fun _ => []).
Proof. intros pre post st ex _ _ _. cbn [app]. now rewrite app_nil_r. Qed.
Lemma rch_ext {A} P m (r r' : io istream A) a e e' : rch P m r a e -> (forall s, r' s = r s) -> (forall p, P p -> 0 <= p -> e' p = e p) -> rch P m r' a e'.
Proof. intros H Hr He pre post st ex HP Hm. rewrite He by (auto; apply zlen_nonneg). rewrite Hr. apply H; auto. Qed.
Lemma wch_int dbg w v (P : Z -> Prop) : (forall p, P p -> p mod Z.of_nat w = 0) -> wch P (owr dbg w v) (fun _ => bytes_le w v).
Proof.
  intros HP s Hs _ Hp Hf. unfold owr, iobind. rewrite iwrite_fits; [reflexivity|exact Hs|intros _; now apply HP|exact Hf].
Qed.
Lemma wch_int' dbg w v (P : Z -> Prop) : (forall p, P p -> p mod Z.of_nat w = 0) -> forall s, o_inside s -> P (opos s) -> fits s (bytes_le w v) ->
  iwrite dbg w v s = Ok (o_after s (bytes_le w v), Val true).
Proof. intros HP s Hs Hp Hf. rewrite iwrite_fits; [reflexivity|exact Hs|intros _; now apply HP|exact Hf]. Qed.
Lemma rch_int dbg w v old (P : Z -> Prop) m : int_ok w v -> (forall p, P p -> p mod Z.of_nat w = 0) -> rch P m (rdi dbg w old) v (fun _ => bytes_le w v).
Proof.
  intros Hv HP pre post st ex Hp _ H. unfold rdi, iobind. rewrite iread_rdr; [reflexivity|exact Hv|intros _; now apply HP|exact H].
Qed.
Lemma wch_align : wch Any (o_align 8) (fun p => pad p 8).
Proof. intros s Hs Ha _ Hf. apply o_align_fits; auto. unfold grain. lia. Qed.
Lemma rch_align m : rch Any m (i_align 8) tt (fun p => pad p 8).
Proof. intros pre post st ex _ _ H. apply rdr_align; auto. unfold grain. lia. Qed.
Lemma wch_str l : str_ok l -> wch Any (str_write l) (fun p => str_enc p l).
Proof. intros Hl s Hs _ _ Hf. now apply str_write_ok. Qed.
Lemma rch_str dbg l old m : str_ok l -> rch Any m (str_read dbg old) l (fun p => str_enc p l).
Proof. intros Hl pre post st ex _ _ H. unfold str_read. rewrite str_read_gen_ok by auto. reflexivity. Qed.

(** Lengths. *)
Lemma align_up8 n : 0 <= n < 2 ^ 62 -> align_up n 8 = n + (- n) mod 8.
Proof. intros H. unfold align_up. rewrite u64_id by lia. pose proof (Z.div_mod (n + 8 - 1) 8). pose proof (Z.div_mod (-n) 8). lia. Qed.
Lemma str_len l p : str_ok l -> zlen (str_enc p l) = str_stream_size l.
Proof.
  intros Hl. unfold str_enc, str_stream_size. rewrite zlen_app. pose proof (len_char l Hl) as C. unfold is_char in C.
  rewrite utf8_bytes_len by (unfold zlen in C; lia). rewrite <- encode_length by exact C. reflexivity.
Qed.
Lemma str_size_pos l : str_ok l -> 0 <= str_stream_size l < 2 ^ 32.
Proof.
  intros Hl. rewrite <- (str_len l 0 Hl). split; [apply zlen_nonneg|]. unfold str_enc. rewrite zlen_app.
  pose proof (encode_length (zlen l) (len_char l Hl)). unfold str_ok, zlen in *.
  assert (len_of (Z.of_nat (length l)) <= 8) by (unfold len_of; repeat match goal with |- context [if ?b then _ else _] => destruct b end; lia). lia.
Qed.
(** A string and its padding. *)
Definition strp_enc (l : list Z) : Z -> list Z := cat (fun p => str_enc p l) (fun p => pad p 8).
Lemma strp_len l p : str_ok l -> A8 p -> zlen (strp_enc l p) = align_up (str_stream_size l) 8.
Proof.
  intros Hl Hp. unfold strp_enc, cat. rewrite zlen_app, pad_len by lia. rewrite str_len by exact Hl.
  pose proof (str_size_pos l Hl). rewrite align_up8 by lia. unfold A8 in Hp. lia.
Qed.
Lemma A8_any e p : A8 (p + zlen (cat e (fun q => pad q 8) p)).
Proof.
  unfold A8, cat. rewrite zlen_app. rewrite Z.add_assoc. apply pad_end. lia.
Qed.
Lemma wch_weaken (P Q : Z -> Prop) w e : wch P w e -> (forall p, 0 <= p -> Q p -> P p) -> wch Q w e.
Proof. intros H HQ s Hs Ha Hq Hf. apply H; auto. apply HQ; auto. unfold o_inside in Hs. lia. Qed.
Lemma rch_weaken {A} (P Q : Z -> Prop) m (r : io istream A) a e : rch P m r a e -> (forall p, 0 <= p -> Q p -> P p) -> rch Q m r a e.
Proof. intros H HQ pre post st ex Hq. apply H; auto. apply HQ; auto. apply zlen_nonneg. Qed.
Lemma wch_strp l : str_ok l -> wch A8 (_ <~ str_write l ;; o_align 8) (strp_enc l).
Proof.
  intros Hl. unfold strp_enc. apply (wch_seq A8 Any).
  - apply (wch_weaken Any); [now apply wch_str|unfold Any; auto].
  - exact wch_align.
  - unfold Any. auto.
Qed.

(** ** The backtrace *)
Lemma determined_ok l : determined (map Some l) = Ok l.
Proof. induction l as [|x t IH]; cbn [map determined]; [reflexivity|]. now rewrite IH. Qed.
Lemma bytes_at_ok l r : bytes_at (Some (map Some l ++ r)) (zlen l) = Ok l.
Proof.
  unfold bytes_at, zlen. destruct l as [|x t]; [reflexivity|].
  replace (Z.of_nat (length (x :: t)) =? 0) with false by (cbn [length]; lia).
  rewrite app_length, map_length. replace (Z.of_nat (length (x :: t) + length r) <? Z.of_nat (length (x :: t))) with false by lia.
  rewrite Nat2Z.id. rewrite firstn_app, firstn_all2 by (rewrite map_length; lia).
  rewrite map_length, Nat.sub_diag, firstn_O, app_nil_r. apply determined_ok.
Qed.
Lemma wch_write_at b n l P : bytes_at b n = Ok l -> n = zlen l -> wch P (o_write_at b n) (fun _ => l).
Proof.
  intros Hb -> s Hs _ _ Hf. unfold o_write_at, iobind. rewrite (o_verify_fits s l) by (auto; pose proof (zlen_nonneg l); lia). cbn [bind].
  unfold lift. rewrite Hb. cbn [bind]. rewrite o_write_fits by auto. reflexivity.
Qed.
Definition abytes (a : list Z) : list Z := flat_map (bytes_le 8) a.
Lemma abytes_len a : zlen (abytes a) = 8 * zlen a.
Proof. induction a as [|x t IH]; [reflexivity|]. unfold abytes in *. cbn [flat_map]. rewrite zlen_app, IH, bytes_zlen, zlen_cons. lia. Qed.
Definition bt_enc (a t : list Z) : Z -> list Z :=
  cat (fun _ => bytes_le 4 (zlen a)) (cat (fun _ => bytes_le 4 (zlen t)) (cat (cat (fun _ => t) (fun p => pad p 8)) (fun _ => abytes a))).
Lemma mod8_4 p : A8 p -> A4 (p + 4). Proof. unfold A8, A4. lia. Qed.
Lemma mod4_8 p : A4 p -> A8 (p + 4). Proof. unfold A8, A4. lia. Qed.
Lemma A8_4 p : A8 p -> p mod Z.of_nat 4 = 0. Proof. unfold A8. lia. Qed.
Lemma A4_4 p : A4 p -> p mod Z.of_nat 4 = 0. Proof. unfold A4. lia. Qed.
Lemma A8_8 p : A8 p -> p mod Z.of_nat 8 = 0. Proof. unfold A8. lia. Qed.
Lemma bt_enc_len a t p : A8 p -> zlen a <= 64 -> zlen t < 2 ^ 32 -> zlen (bt_enc a t p) = align_up (4 + 4 + zlen a * 8 + zlen t) 8.
Proof.
  intros Hp Ha Ht. pose proof (zlen_nonneg a). pose proof (zlen_nonneg t). rewrite align_up8 by lia.
  unfold bt_enc, cat. rewrite !zlen_app, !bytes_zlen, abytes_len, pad_len by lia. change (Z.of_nat 4) with 4. unfold A8 in Hp. lia.
Qed.
Lemma shows_addr b a t : shows b a t -> bytes_at (Some (addr_bytes (baddr b))) (bn b * 8) = Ok (abytes a).
Proof.
  intros (L & N & L64 & F & _). rewrite N. unfold addr_bytes. rewrite <- (firstn_skipn (length a) (baddr b)), F, flat_map_app, map_app.
  replace (Z.of_nat (length a) * 8) with (zlen (abytes a)) by (rewrite abytes_len; unfold zlen; lia).
  apply (bytes_at_ok (abytes a)).
Qed.
Lemma shows_syms b a t : shows b a t -> bytes_at (bsyms b) (bsz b) = Ok t.
Proof.
  intros (_ & _ & _ & _ & _ & _ & S & _ & [E | (E & ->)]); rewrite S, E.
  - apply (bytes_at_ok t).
  - reflexivity.
Qed.
Lemma wch_bt dbg b a t : shows b a t -> wch A8 (bt_write dbg b) (bt_enc a t).
Proof.
  intros Sh s Hs Ha Hp Hf. unfold bt_write. replace (dbg && negb (opos s mod 8 =? 0)) with false.
  2: { unfold A8 in Hp. rewrite Hp. destruct dbg; reflexivity. }
  pose proof Sh as (_ & N & _ & _ & _ & _ & Z0 & _).
  assert (W : wch A8 (_ <~ (_ <~ iwrite dbg 4 (bn b) ;; ret tt) ;; _ <~ (_ <~ iwrite dbg 4 (bsz b) ;; ret tt) ;;
     _ <~ (_ <~ o_write_at (bsyms b) (bsz b) ;; o_align 8) ;; o_write_at (Some (addr_bytes (baddr b))) (bn b * 8)) (bt_enc a t)).
  { unfold bt_enc. rewrite N, Z0. fold (zlen a) (zlen t).
    apply (wch_seq A8 A4); [apply (wch_int dbg 4 _ A8 A8_4)| |intros p _ H; rewrite bytes_zlen; now apply mod8_4].
    apply (wch_seq A4 A8); [apply (wch_int dbg 4 _ A4 A4_4)| |intros p _ H; rewrite bytes_zlen; now apply mod4_8].
    apply (wch_seq A8 A8).
    - apply (wch_seq A8 Any).
      + apply wch_write_at; [|reflexivity]. unfold zlen. rewrite <- Z0. exact (shows_syms b a t Sh).
      + exact wch_align.
      + unfold Any. auto.
    - apply wch_write_at; [|rewrite abytes_len; lia]. unfold zlen. rewrite <- N. exact (shows_addr b a t Sh).
    - intros p _ _. apply A8_any. }
  specialize (W s Hs Ha Hp Hf). rewrite <- W. unfold iobind, ret.
  destruct (iwrite dbg 4 (bn b) s) as [[s1 [?|?]]| | |]; cbn [bind]; try reflexivity.
  destruct (iwrite dbg 4 (bsz b) s1) as [[s2 [?|?]]| | |]; cbn [bind]; try reflexivity.
  destruct (o_write_at (bsyms b) (bsz b) s2) as [[s3 [?|?]]| | |]; cbn [bind]; reflexivity.
Qed.
Lemma addrs_of_ok a : forall r, Forall (fun x => 0 <= x < 2 ^ 64) a -> addrs_of (length a) (abytes a ++ r) = a.
Proof.
  induction a as [|x t IH]; intros r H; cbn [length addrs_of]; [reflexivity|]. inversion H as [|? ? Hx Ht]; subst.
  unfold abytes in *. cbn [flat_map]. rewrite <- app_assoc.
  rewrite firstn_app, skipn_app, bytes_le_length, Nat.sub_diag, firstn_O.
  rewrite app_nil_r, firstn_all2, skipn_all2 by (rewrite bytes_le_length; lia). cbn [app]. change (skipn 0 (flat_map (bytes_le 8) t ++ r)) with (flat_map (bytes_le 8) t ++ r).
  rewrite of_bytes_bytes by (change (256 ^ Z.of_nat 8) with (2 ^ 64); exact Hx). now rewrite IH.
Qed.
Lemma upd_last {A} (l : list A) x y : upd (l ++ [x]) (length l) y = Some (l ++ [y]).
Proof. induction l as [|h t IH]; cbn [app length upd]; [reflexivity|]. now rewrite IH. Qed.
Lemma rch_bt dbg mal old a t m : (forall n, mal n = true) -> length (baddr old) = 64%nat -> zlen a <= 64 -> zlen t < 2 ^ 32 - 1 ->
  Forall (fun x => 0 <= x < 2 ^ 64) a ->
  rch A8 m (bt_read dbg mal old) (mkbt (a ++ skipn (length a) (baddr old)) (Some (map Some t ++ [Some 0])) (zlen a) (zlen t)) (bt_enc a t).
Proof.
  intros Hm H64 Ha Ht Hv pre post st ex Hp _ H. unfold bt_read.
  replace (dbg && negb (ipos (rdr pre (bt_enc a t (zlen pre) ++ post) st ex) mod 8 =? 0)) with false.
  2: { cbn [rdr ipos]. unfold A8 in Hp. rewrite Hp. destruct dbg; reflexivity. }
  pose proof (zlen_nonneg a) as Ha0. pose proof (zlen_nonneg t) as Ht0. pose proof (zlen_nonneg pre) as H0.
  unfold bt_enc, cat in *. rewrite <- !app_assoc in H |- *. unfold iobind.
  rewrite iread_rdr; [|split; [lia|change (256 ^ Z.of_nat 4) with (2^32); lia]|intros _; exact (A8_4 _ Hp)|exact H]. cbn [bind].
  rewrite app_assoc in H. rewrite bytes_zlen in *. change (Z.of_nat 4) with 4 in *.
  assert (L1 : zlen (pre ++ bytes_le 4 (zlen a)) = zlen pre + 4) by (rewrite zlen_app, bytes_zlen; reflexivity).
  rewrite iread_rdr; [|split; [lia|change (256 ^ Z.of_nat 4) with (2^32); lia]|intros _; rewrite L1; exact (A4_4 _ (mod8_4 _ Hp))|exact H]. cbn [bind].
  rewrite app_assoc in H.
  assert (L2 : zlen ((pre ++ bytes_le 4 (zlen a)) ++ bytes_le 4 (zlen t)) = zlen pre + 4 + 4) by (rewrite zlen_app, L1, bytes_zlen; reflexivity).
  rewrite bytes_zlen in *. change (Z.of_nat 4) with 4 in *. rewrite <- L2 in *.
  set (pre2 := (pre ++ bytes_le 4 (zlen a)) ++ bytes_le 4 (zlen t)) in *.
  rewrite rdr_read; [|exact H|reflexivity]. cbn [bind]. rewrite app_assoc in H.
  rewrite u32_id by lia. rewrite Hm. replace (zlen t + 1 <? zlen t) with false by lia. replace (zlen t <? zlen t + 1) with true by lia.
  cbn [bind]. replace (zlen t + 1 - zlen t) with 1 by lia. change (repeat None (Z.to_nat 1)) with [@None Z].
  unfold wr. replace (Z.to_nat (zlen t)) with (length (map (@Some Z) t)) by (rewrite map_length; unfold zlen; lia). rewrite upd_last.
  unfold lift. cbn [bind]. rewrite <- zlen_app in *. 
  rewrite rdr_align; [|exact H|unfold grain; lia]. cbn [bind]. rewrite app_assoc in H.
  rewrite rdr_read; [|exact H|rewrite abytes_len; lia]. cbn [bind].
  replace (Z.of_nat max_frames <? zlen a) with false by (unfold max_frames; lia). cbn [bind].
  replace (Z.to_nat (zlen a)) with (length a) by (unfold zlen; lia).
  pose proof (addrs_of_ok a [] Hv) as E. rewrite app_nil_r in E. rewrite E.
  unfold pre2. rewrite <- !app_assoc. reflexivity.
Qed.
Lemma shows_read b a t old : shows b a t -> length (baddr old) = 64%nat ->
  shows (mkbt (a ++ skipn (length a) (baddr old)) (Some (map Some t ++ [Some 0])) (zlen a) (zlen t)) a t.
Proof.
  intros (L & N & L64 & F & V & T & Z0 & B & _) H64. unfold shows. cbn [bn baddr bsz bsyms].
  split; [exact L|]. split; [reflexivity|]. split; [rewrite app_length, skipn_length; lia|].
  split; [rewrite firstn_app, Nat.sub_diag, firstn_all, firstn_O, app_nil_r; reflexivity|]. split; [exact V|]. split; [exact T|]. split; [reflexivity|]. split; [exact B|now left].
Qed.

(** ** Whole exceptions *)
Section Whole.
  Variable dbg : bool.
  Variables (x : exc) (a t : list Z).
  Hypothesis Hsh : shows (xbt x) a t.
  Hypothesis Hd : data_ok (xd x).
  Hypothesis Hfmt : u32_ok (xfmt x).
  Hypothesis Hsz : x_size x < 2 ^ 32.

  Definition head_enc : Z -> list Z :=
    cat (fun _ => bytes_le 4 (xfmt x)) (cat (fun _ => bytes_le 4 (x_size x - 8)) (bt_enc a t)).
  Definition sys_tail (op : list Z) (eno : Z) : Z -> list Z :=
    cat (strp_enc op) (cat (fun _ => bytes_le 4 eno) (fun p => pad p 8)).
  Definition nil_enc : Z -> list Z := fun _ => [].
  Definition tail_enc : Z -> list Z :=
    match xd x with
    | XNone => nil_enc
    | XAlloc n => fun _ => bytes_le 8 n
    | XMessage g => strp_enc g
    | XSystem g o e => cat (strp_enc g) (sys_tail o e)
    | XFile g o e n => cat (cat (strp_enc g) (sys_tail o e)) (strp_enc n)
    | XBounds g o e tn f ex r => cat (cat (strp_enc g) (sys_tail o e))
        (cat (fun _ => bytes_le 8 tn) (cat (fun _ => bytes_le 8 f) (cat (fun _ => bytes_le 8 ex) (fun _ => bytes_le 8 r))))
    end.
  Definition x_enc : Z -> list Z := cat head_enc tail_enc.

  Lemma align_up_ge n : 0 <= n < 2 ^ 62 -> n <= align_up n 8 /\ align_up n 8 mod 8 = 0 /\ align_up n 8 < n + 8.
  Proof. intros H. rewrite align_up8 by exact H. lia. Qed.
  Lemma text_small : zlen a <= 64 /\ zlen t < 2 ^ 32 /\ bt_size (xbt x) = align_up (4 + 4 + zlen a * 8 + zlen t) 8.
  Proof.
    pose proof Hsh as (L & N & _ & _ & _ & _ & Z0 & B & _). assert (La : zlen a <= 64) by (unfold zlen; lia).
    split; [exact La|]. split; [exact B|]. unfold bt_size. rewrite N, Z0. reflexivity.
  Qed.
  Lemma text_ok_str l : text_ok l -> str_ok l. Proof. exact (fun h => h). Qed.
  Lemma A8_add p q : A8 p -> q mod 8 = 0 -> A8 (p + q). Proof. unfold A8. lia. Qed.
  Lemma strp_A8 l p : str_ok l -> A8 p -> A8 (p + zlen (strp_enc l p)).
  Proof. intros _ _. apply A8_any. Qed.
  Lemma sys_tail_len o e p : str_ok o -> A8 p -> zlen (sys_tail o e p) = align_up (str_stream_size o) 8 + align_up 4 8.
  Proof.
    intros Ho Hp. unfold sys_tail, cat at 1. rewrite zlen_app.
    pose proof (strp_A8 o p Ho Hp) as H8. pose proof (strp_len o p Ho Hp) as L. set (q := p + zlen (strp_enc o p)) in *. rewrite L. f_equal.
    unfold cat. rewrite zlen_app, bytes_zlen, pad_len by lia.
    rewrite align_up8 by lia. change (Z.of_nat 4) with 4. unfold A8 in H8. lia.
  Qed.
  Lemma sys_tail_A8 o e p : A8 (p + zlen (sys_tail o e p)).
  Proof.
    unfold sys_tail, cat at 1. rewrite zlen_app, Z.add_assoc. apply A8_any.
  Qed.
  Lemma head_len p : A8 p -> zlen (head_enc p) = base_size x.
  Proof.
    intros Hp. destruct text_small as (La & Lt & Sb). unfold head_enc, cat. rewrite !zlen_app, !bytes_zlen. change (Z.of_nat 4) with 4.
    rewrite bt_enc_len; [|exact (mod4_8 _ (mod8_4 _ Hp))|exact La|exact Lt]. unfold base_size. rewrite Sb. lia.
  Qed.
  Lemma base_A8 : base_size x mod 8 = 0.
  Proof.
    destruct text_small as (La & Lt & Sb). unfold base_size. rewrite Sb. pose proof (zlen_nonneg a). pose proof (zlen_nonneg t).
    pose proof (align_up_ge (4 + 4 + zlen a * 8 + zlen t) ltac:(lia)). lia.
  Qed.
  Lemma base_bound : zlen t + 16 <= base_size x.
  Proof.
    destruct text_small as (La & Lt & Sb). unfold base_size. rewrite Sb. pose proof (zlen_nonneg a). pose proof (zlen_nonneg t).
    pose proof (align_up_ge (4 + 4 + zlen a * 8 + zlen t) ltac:(lia)). lia.
  Qed.
  Lemma head_A8 p : A8 p -> A8 (p + zlen (head_enc p)).
  Proof. intros Hp. rewrite head_len by exact Hp. apply A8_add; [exact Hp|exact base_A8]. Qed.
  Lemma cat_len e1 e2 p : zlen (cat e1 e2 p) = zlen (e1 p) + zlen (e2 (p + zlen (e1 p))).
  Proof. unfold cat. apply zlen_app. Qed.
  Lemma tail_len p : A8 p -> zlen (tail_enc p) = x_size x - base_size x.
  Proof.
    intros Hp. unfold tail_enc, x_size, sys_size, msg_size. destruct (xd x) as [|n|g|g o e|g o e n|g o e tn f ex r]; cbn [data_ok] in Hd.
    - change (zlen (nil_enc p)) with 0. lia.
    - rewrite bytes_zlen. lia.
    - rewrite strp_len by assumption. lia.
    - rewrite cat_len. rewrite sys_tail_len; [|tauto|now apply strp_A8]. rewrite strp_len by tauto. lia.
    - assert (Hn : str_ok n) by (unfold str_ok, zlen; lia).
      rewrite !cat_len. rewrite sys_tail_len; [|tauto|now apply strp_A8]. rewrite strp_len by tauto.
      rewrite strp_len; [lia|exact Hn|]. 
      pose proof (str_size_pos g ltac:(tauto)). pose proof (str_size_pos o ltac:(tauto)).
      pose proof (align_up_ge (str_stream_size g) ltac:(lia)). pose proof (align_up_ge (str_stream_size o) ltac:(lia)). pose proof (align_up_ge 4 ltac:(lia)).
      apply A8_add; [exact Hp|lia].
    - rewrite !cat_len. rewrite sys_tail_len; [|tauto|now apply strp_A8]. rewrite strp_len by tauto. rewrite !bytes_zlen. lia.
  Qed.
  Lemma tail_nonneg : base_size x <= x_size x.
  Proof. pose proof (tail_len 0 eq_refl). pose proof (zlen_nonneg (tail_enc 0)). lia. Qed.
  Lemma x_size_8 : x_size x mod 8 = 0.
  Proof.
    pose proof base_A8 as B. pose proof Hd as Hk. revert Hk. unfold x_size, sys_size, msg_size.
    pose proof (align_up_ge 4 ltac:(lia)) as A4'.
    assert (S8 : forall l, str_ok l -> align_up (str_stream_size l) 8 mod 8 = 0).
    { intros l Hl. pose proof (str_size_pos l Hl). pose proof (align_up_ge (str_stream_size l) ltac:(lia)). tauto. }
    set (bs := base_size x) in *.
    case (xd x); [intros Hk|intros n Hk|intros g Hk|intros g o e Hk|intros g o e n Hk|intros g o e tn f ex r Hk]; cbn [data_ok] in Hk.
    - exact B.
    - lia.
    - pose proof (S8 g Hk). lia.
    - pose proof (S8 g ltac:(tauto)). pose proof (S8 o ltac:(tauto)). lia.
    - pose proof (S8 g ltac:(tauto)). pose proof (S8 o ltac:(tauto)). pose proof (S8 n ltac:(unfold str_ok, zlen; lia)). lia.
    - pose proof (S8 g ltac:(tauto)). pose proof (S8 o ltac:(tauto)). lia.
  Qed.
  Lemma x_enc_len p : A8 p -> zlen (x_enc p) = x_size x.
  Proof. intros Hp. unfold x_enc. rewrite cat_len, tail_len by now apply head_A8. rewrite head_len by exact Hp. lia. Qed.

  Lemma wch_head : wch A8 (base_write dbg x) head_enc.
  Proof.
    pose proof tail_nonneg. pose proof base_bound. pose proof (zlen_nonneg t).
    unfold base_write, head_enc. rewrite u64_id, u32_id by lia.
    apply (wch_seq A8 A4); [apply wch_int, A8_4| |intros p _ Hp; rewrite bytes_zlen; now apply mod8_4].
    apply (wch_seq A4 A8); [apply wch_int, A4_4| |intros p _ Hp; rewrite bytes_zlen; now apply mod4_8].
    now apply wch_bt.
  Qed.
  Lemma wch_ext P w e e' : wch P w e -> (forall p, e' p = e p) -> wch P w e'.
  Proof. intros H E s Hs Ha Hp. rewrite E. now apply H. Qed.
  Lemma cat_assoc e1 e2 e3 p : cat e1 (cat e2 e3) p = cat (cat e1 e2) e3 p.
  Proof. unfold cat. rewrite <- app_assoc, zlen_app, Z.add_assoc. reflexivity. Qed.
  Lemma wch_sys g o e : str_ok g -> str_ok o -> wch A8 (sys_write dbg x g o e) (cat head_enc (cat (strp_enc g) (sys_tail o e))).
  Proof.
    intros Hg Ho. unfold sys_write, msg_write.
    apply (wch_ext A8 _ (cat (cat head_enc (strp_enc g)) (sys_tail o e))); [|intros p; apply cat_assoc].
    apply (wch_seq A8 A8).
    - apply (wch_seq A8 A8); [exact wch_head|now apply wch_strp|]. intros p _. apply head_A8.
    - unfold sys_tail.
      assert (W : wch A8 (_ <~ (_ <~ str_write o ;; o_align 8) ;; _ <~ owr dbg 4 e ;; o_align 8) (cat (strp_enc o) (cat (fun _ => bytes_le 4 e) (fun p => pad p 8)))).
      { apply (wch_seq A8 A8); [now apply wch_strp| |intros p _ Hp; apply A8_any].
        apply (wch_seq A8 Any); [apply wch_int, A8_4|exact wch_align|unfold Any; auto]. }
      intros s Hs Ha Hp Hf. rewrite <- (W s Hs Ha Hp Hf). unfold iobind.
      destruct (str_write o s) as [[s1 [?|?]]| | |]; cbn [bind]; reflexivity.
    - intros p _ _. unfold strp_enc. rewrite cat_assoc. apply A8_any.
  Qed.
  Lemma sys_end o e g p : A8 (p + zlen (cat head_enc (cat (strp_enc g) (sys_tail o e)) p)).
  Proof. rewrite !cat_len. rewrite !Z.add_assoc. apply sys_tail_A8. Qed.
  Lemma A8_b8 p v : A8 p -> A8 (p + zlen (bytes_le 8 v)).
  Proof. intros H. rewrite bytes_zlen. apply A8_add; [exact H|reflexivity]. Qed.
  Lemma wch_x : wch A8 (x_write dbg x) x_enc.
  Proof.
    unfold x_write, x_enc, tail_enc. pose proof Hd as Hk. revert Hk. case (xd x); [intros Hk|intros n Hk|intros g Hk|intros g o e Hk|intros g o e n Hk|intros g o e tn f ex r Hk]; cbn [data_ok] in Hk.
    - intros s Hs Ha Hp. unfold cat, nil_enc. rewrite app_nil_r. now apply wch_head.
    - apply (wch_seq A8 A8); [exact wch_head|apply wch_int, A8_8|]. intros p _. apply head_A8.
    - unfold msg_write. apply (wch_seq A8 A8); [exact wch_head|now apply wch_strp|]. intros p _. apply head_A8.
    - apply wch_sys; tauto.
    - assert (Hn : str_ok n) by (unfold str_ok, zlen; lia).
      apply (wch_ext A8 _ (cat (cat head_enc (cat (strp_enc g) (sys_tail o e))) (strp_enc n))); [|intros p; apply cat_assoc].
      apply (wch_seq A8 A8); [apply wch_sys; tauto|now apply wch_strp|]. intros p _ _. apply sys_end.
    - apply (wch_ext A8 _ (cat (cat head_enc (cat (strp_enc g) (sys_tail o e)))
        (cat (fun _ => bytes_le 8 tn) (cat (fun _ => bytes_le 8 f) (cat (fun _ => bytes_le 8 ex) (fun _ => bytes_le 8 r)))))); [|intros p; apply cat_assoc].
      apply (wch_seq A8 A8); [apply wch_sys; tauto| |intros p _ _; apply sys_end].
      apply (wch_seq A8 A8); [apply wch_int, A8_8| |intros p _ Hp; now apply A8_b8].
      apply (wch_seq A8 A8); [apply wch_int, A8_8| |intros p _ Hp; now apply A8_b8].
      apply (wch_seq A8 A8); [apply wch_int, A8_8|apply wch_int, A8_8|intros p _ Hp; now apply A8_b8].
  Qed.

  (** Reading. *)
  Variable mal : Z -> bool.
  Hypothesis Hmal : forall n, mal n = true.
  Variable old : exc.
  Hypothesis Hcl : same_class (xd x) (xd old).
  Hypothesis Hof : xfmt old = xfmt x.
  Hypothesis Ho64 : length (baddr (xbt old)) = 64%nat.
  Definition bt_new : bt := mkbt (a ++ skipn (length a) (baddr (xbt old))) (Some (map Some t ++ [Some 0])) (zlen a) (zlen t).
  Lemma rch_head : rch A8 (x_size x - base_size x) (base_read dbg mal old) (xfmt x, bt_new) head_enc.
  Proof.
    pose proof tail_nonneg as Tn. pose proof base_bound as Bb. pose proof (zlen_nonneg t) as Ht0. destruct text_small as (La & Lt & Sb).
    pose proof Hsh as (_ & _ & _ & _ & V & _).
    intros pre post st ex Hp Hm H. unfold base_read, head_enc in *.
    assert (R : rch A8 (x_size x - base_size x) (f <~ rdi dbg 4 0 ;; sz <~ rdi dbg 4 0 ;; b <~ bt_read dbg mal (xbt old) ;; ret (f, sz, b))
                  (xfmt x, x_size x - 8, bt_new) (cat (fun _ => bytes_le 4 (xfmt x)) (cat (fun _ => bytes_le 4 (x_size x - 8)) (cat (bt_enc a t) nil_enc)))).
    { eapply (rch_seq A8 A4 0); [apply rch_int; [exact Hfmt|exact A8_4]| |intros p _ Hq; rewrite bytes_zlen; now apply mod8_4|intros p _ _; match goal with |- _ <= _ + zlen ?z => pose proof (zlen_nonneg z) end; lia].
      eapply (rch_seq A4 A8 0); [apply rch_int; [split; [lia|change (256 ^ Z.of_nat 4) with (2^32); lia]|exact A4_4]| |intros p _ Hq; rewrite bytes_zlen; now apply mod4_8|intros p _ _; match goal with |- _ <= _ + zlen ?z => pose proof (zlen_nonneg z) end; lia].
      eapply (rch_seq A8 Any 0); [apply rch_bt; auto; lia| |unfold Any; auto|intros p _ _; match goal with |- _ <= _ + zlen ?z => pose proof (zlen_nonneg z) end; lia].
      apply rch_ret. }
    assert (E : cat (fun _ => bytes_le 4 (xfmt x)) (cat (fun _ => bytes_le 4 (x_size x - 8)) (cat (bt_enc a t) nil_enc)) (zlen pre)
              = cat (fun _ => bytes_le 4 (xfmt x)) (cat (fun _ => bytes_le 4 (x_size x - 8)) (bt_enc a t)) (zlen pre)).
    { unfold cat, nil_enc. now rewrite app_nil_r. }
    specialize (R pre post st ex Hp Hm). rewrite E in R. specialize (R H).
    set (s0 := rdr pre _ st ex) in *. unfold iobind, ret in *.
    destruct (rdi dbg 4 0 s0) as [[s1 [f|?]]| | |]; cbn [bind] in *; try discriminate.
    destruct (rdi dbg 4 0 s1) as [[s2 [sz|?]]| | |]; cbn [bind] in *; try discriminate.
    destruct (bt_read dbg mal (xbt old) s2) as [[s3 [b|?]]| | |]; cbn [bind] in *; try discriminate.
    injection R as -> -> -> ->. rewrite Hof, Z.eqb_refl. cbn [negb orb].
    replace (u32 (x_size x - 8 + 8)) with (x_size x) by (rewrite u32_id; lia).
    assert (Sn : bt_size bt_new = bt_size (xbt x)) by (rewrite Sb; reflexivity). rewrite Sn.
    replace (8 + bt_size (xbt x)) with (base_size x) by (unfold base_size; lia). rewrite u64_id by lia.
    match goal with |- context [i_remaining ?s] => assert (Rm : i_remaining s = zlen post) end.
    { unfold i_remaining, isize, rdr. cbn [idata ipos]. rewrite app_assoc in H. fold (zlen (A:=Z)).
      match goal with |- u64 (Z.of_nat (length ?l) - _) = _ => change (Z.of_nat (length l)) with (zlen l) end.
      rewrite zlen_app in H |- *. rewrite u64_id; [lia|]. pose proof (zlen_nonneg post). match type of H with zlen ?z + _ < _ => pose proof (zlen_nonneg z) end. lia. }
    rewrite Rm. replace (zlen post <? x_size x - base_size x) with false by lia.
    rewrite andb_false_r. reflexivity.
  Qed.
  Lemma room m (e : Z -> list Z) p : m <= m + zlen (e p).
  Proof. pose proof (zlen_nonneg (e p)). lia. Qed.
  Lemma rch_strp m l o : str_ok l -> rch A8 m (x <~ str_read dbg o ;; _ <~ i_align 8 ;; ret x) l (strp_enc l).
  Proof.
    intros Hl.
    apply (rch_ext A8 m (x <~ str_read dbg o ;; _ <~ i_align 8 ;; ret x) _ _ (cat (fun p => str_enc p l) (cat (fun p => pad p 8) nil_enc))).
    2: reflexivity. 2: { intros p _ _. unfold strp_enc, cat, nil_enc. now rewrite app_nil_r. }
    eapply (rch_seq A8 Any m m); [apply (rch_weaken Any); [now apply rch_str|unfold Any; auto]| |unfold Any; auto|intros p _ _; apply room].
    eapply (rch_seq Any Any m m); [apply rch_align|apply rch_ret|unfold Any; auto|intros p _ _; apply room].
  Qed.
  Lemma rch_msg m g og : str_ok g -> x_size x - base_size x <= m + align_up (str_stream_size g) 8 ->
    rch A8 m (msg_read dbg mal old og) (xfmt x, bt_new, g) (cat head_enc (strp_enc g)).
  Proof.
    intros Hg Hm.
    apply (rch_ext A8 _ (fb <~ base_read dbg mal old ;; (fun fb => a <~ (a <~ str_read dbg og ;; _ <~ i_align 8 ;; ret a) ;; ret (fb, a)) fb) _ _ (cat head_enc (cat (strp_enc g) nil_enc))).
    2: { intros s. unfold msg_read, iobind, ret. destruct (base_read dbg mal old s) as [[s1 [fb|?]]| | |]; cbn [bind]; try reflexivity.
         destruct (str_read dbg og s1) as [[s2 [v|?]]| | |]; cbn [bind]; try reflexivity.
         destruct (i_align 8 s2) as [[s3 [u|?]]| | |]; cbn [bind]; reflexivity. }
    2: { intros p _ _. unfold cat, nil_enc. now rewrite app_nil_r. }
    eapply (rch_seq A8 A8 (x_size x - base_size x) m); [exact rch_head| |intros p _; apply head_A8|].
    - eapply (rch_seq A8 Any m m); [now apply rch_strp|apply rch_ret|unfold Any; auto|intros p _ _; apply room].
    - intros p H0 Hp. rewrite cat_len, (strp_len g _ Hg (head_A8 p Hp)). change (zlen (nil_enc _)) with 0. lia.
  Qed.
  Lemma rch_sys m g o e og oo oe : str_ok g -> str_ok o -> u32_ok e ->
    x_size x - base_size x <= m + align_up (str_stream_size g) 8 + align_up (str_stream_size o) 8 + align_up 4 8 ->
    rch A8 m (sys_read dbg mal old og oo oe) (xfmt x, bt_new, g, o, e) (cat head_enc (cat (strp_enc g) (sys_tail o e))).
  Proof.
    intros Hg Ho He Hm.
    apply (rch_ext A8 _ (r <~ msg_read dbg mal old og ;; (fun r => o <~ (x <~ str_read dbg oo ;; _ <~ i_align 8 ;; ret x) ;; e <~ rdi dbg 4 oe ;; _ <~ i_align 8 ;; ret (r, o, e)) r) _ _
      (cat (cat head_enc (strp_enc g)) (cat (strp_enc o) (cat (fun _ => bytes_le 4 e) (cat (fun p => pad p 8) nil_enc))))).
    2: { intros s. unfold sys_read, iobind, ret. destruct (msg_read dbg mal old og s) as [[s1 [fb|?]]| | |]; cbn [bind]; try reflexivity.
         destruct (str_read dbg oo s1) as [[s2 [v|?]]| | |]; cbn [bind]; try reflexivity.
         destruct (i_align 8 s2) as [[s3 [u|?]]| | |]; cbn [bind]; reflexivity. }
    2: { intros p _ _. rewrite cat_assoc. unfold cat, sys_tail, nil_enc, cat. now rewrite app_nil_r. }
    eapply (rch_seq A8 A8 (m + align_up (str_stream_size o) 8 + align_up 4 8) m).
    - apply rch_msg; [exact Hg|lia].
    - eapply (rch_seq A8 A8 m m); [now apply rch_strp| |intros p _ Hp; now apply strp_A8|intros p _ _; apply room].
      eapply (rch_seq A8 Any m m); [apply rch_int; [exact He|exact A8_4]| |unfold Any; auto|intros p _ _; apply room].
      eapply (rch_seq Any Any m m); [apply rch_align|apply rch_ret|unfold Any; auto|intros p _ _; apply room].
    - intros p _ Hp. unfold strp_enc. rewrite cat_assoc. apply A8_any.
    - intros p _ Hp. assert (H8 : A8 (p + zlen (cat head_enc (strp_enc g) p))) by (unfold strp_enc; rewrite cat_assoc; apply A8_any).
      pose proof (sys_tail_len o e _ Ho H8) as L. unfold sys_tail in L. rewrite !cat_len in *. 
      match goal with |- context [zlen (nil_enc ?z)] => change (zlen (nil_enc z)) with 0 end. rewrite ?Z.add_assoc in *. lia.
  Qed.
  Lemma fname_same n : Forall (fun c => c <> 0) n -> Z.of_nat (length n) <= 4095 -> upto0 (firstn (Z.to_nat (path_max - 1)) n) = n.
  Proof.
    intros Hn Hl. unfold path_max. rewrite firstn_all2 by lia. clear Hl. induction Hn as [|c r Hc Hr IH]; cbn [upto0]; [reflexivity|].
    destruct (Z.eqb_spec c 0); [contradiction|]. now rewrite IH.
  Qed.
  Lemma sys_room g o (e : Z) n : x_size x = sys_size x g o + n -> x_size x - base_size x <= n + align_up (str_stream_size g) 8 + align_up (str_stream_size o) 8 + align_up 4 8.
  Proof. intros ->. unfold sys_size, msg_size. lia. Qed.
  Lemma cat_nil e p : cat e nil_enc p = e p.
  Proof. unfold cat, nil_enc. apply app_nil_r. Qed.
  Lemma cat_ext e f g p : (forall q, f q = g q) -> cat e f p = cat e g p.
  Proof. intros H. unfold cat. now rewrite H. Qed.
  Lemma rch_x : rch A8 0 (x_read dbg mal old) (mkexc (xfmt x) bt_new (xd x)) x_enc.
  Proof.
    unfold x_read, x_enc, tail_enc. pose proof tail_nonneg as Tn. pose proof (tail_len 0 eq_refl) as T0.
    assert (Sx := eq_refl : x_size x = x_size x). unfold x_size at 2 in Sx. pose proof Hd as Hk. pose proof Hcl as Hc. revert Sx Hk Hc.
    case (xd x); [|intros n|intros g|intros g o e|intros g o e n|intros g o e tn f ex r]; case (xd old);
      try (intros; exfalso; cbn [same_class] in *; assumption); [|intros on|intros og|intros og oo oe|intros og oo oe onn|intros og oo oe otn of oex orr];
      intros Sx Hk _; cbn [data_ok] in Hk.
    - eapply (rch_seq A8 Any (x_size x - base_size x) 0); [exact rch_head|apply rch_ret|unfold Any; auto|].
      intros p _ _. change (zlen (nil_enc (p + zlen (head_enc p)))) with 0. lia.
    - apply (rch_ext A8 _ (fb <~ base_read dbg mal old ;; n <~ rdi dbg 8 on ;; ret (mkexc (fst fb) (snd fb) (XAlloc n))) _ _ (cat head_enc (cat (fun _ => bytes_le 8 n) nil_enc))); [|reflexivity|].
      2: { intros p _ _. unfold cat, nil_enc. now rewrite app_nil_r. }
      eapply (rch_seq A8 A8 (x_size x - base_size x) 0); [exact rch_head| |intros p _; apply head_A8|].
      + eapply (rch_seq A8 Any 0 0); [apply rch_int; [exact Hk|exact A8_8]|apply rch_ret|unfold Any; auto|intros p _ _; apply room].
      + intros p _ _. rewrite cat_len, bytes_zlen. match goal with |- context [zlen (nil_enc ?z)] => change (zlen (nil_enc z)) with 0 end. lia.
    - apply (rch_ext A8 _ (r <~ msg_read dbg mal old og ;; (fun r => let '(f, b, a) := r in ret (mkexc f b (XMessage a))) r) _ _ (cat (cat head_enc (strp_enc g)) nil_enc)); [|reflexivity|].
      2: { intros p _ _. unfold cat, nil_enc. now rewrite app_nil_r. }
      eapply (rch_seq A8 Any 0 0); [apply (rch_msg 0 g og); [exact Hk|unfold msg_size in Sx; lia]|apply rch_ret|unfold Any; auto|intros p _ _; apply room].
    - apply (rch_ext A8 _ (r <~ sys_read dbg mal old og oo oe ;; (fun r => let '(f, b, a, o, e) := r in ret (mkexc f b (XSystem a o e))) r) _ _
        (cat (cat head_enc (cat (strp_enc g) (sys_tail o e))) nil_enc)); [|reflexivity|].
      2: { intros p _ _. symmetry. apply cat_nil. }
      eapply (rch_seq A8 Any 0 0); [apply (rch_sys 0 g o e og oo oe); [tauto..|apply (sys_room _ _ e); lia]|apply rch_ret|unfold Any; auto|intros p _ _; apply room].
    - assert (Hn : str_ok n) by (unfold str_ok, zlen; lia).
      apply (rch_ext A8 _ (r <~ sys_read dbg mal old og oo oe ;; (fun r => n <~ (n <~ str_read dbg [] ;; _ <~ i_align 8 ;; ret n) ;;
          let '(f, b, a, o, e) := r in ret (mkexc f b (XFile a o e (upto0 (firstn (Z.to_nat (path_max - 1)) n))))) r) _ _
        (cat (cat head_enc (cat (strp_enc g) (sys_tail o e))) (cat (strp_enc n) nil_enc))).
      2: { intros s. unfold iobind, ret. destruct (sys_read dbg mal old og oo oe s) as [[s1 [fb|?]]| | |]; cbn [bind]; try reflexivity.
           destruct (str_read dbg [] s1) as [[s2 [v|?]]| | |]; cbn [bind]; try reflexivity.
           destruct (i_align 8 s2) as [[s3 [u|?]]| | |]; cbn [bind]; reflexivity. }
      2: { intros p _ _. rewrite cat_assoc. apply cat_ext. intros q. symmetry. apply cat_nil. }
      eapply (rch_seq A8 A8 (align_up (str_stream_size n) 8) 0).
      + eapply (rch_sys _ g o e og oo oe); [tauto..|]. apply (sys_room _ _ e). lia.
      + eapply (rch_seq A8 Any 0 0); [now apply rch_strp| |unfold Any; auto|intros p _ _; apply room].
        rewrite fname_same by tauto. apply rch_ret.
      + intros p _ _. apply sys_end.
      + intros p _ _. rewrite cat_len, (strp_len n _ Hn) by apply sys_end. match goal with |- context [zlen (nil_enc ?z)] => change (zlen (nil_enc z)) with 0 end. lia.
    - apply (rch_ext A8 _ (r <~ sys_read dbg mal old og oo oe ;; (fun r => tn <~ rdi dbg 8 otn ;; off <~ rdi dbg 8 of ;; ex <~ rdi dbg 8 oex ;; rm <~ rdi dbg 8 orr ;;
          let '(f, b, a, o, e) := r in ret (mkexc f b (XBounds a o e tn off ex rm))) r) _ _
        (cat (cat head_enc (cat (strp_enc g) (sys_tail o e)))
          (cat (fun _ => bytes_le 8 tn) (cat (fun _ => bytes_le 8 f) (cat (fun _ => bytes_le 8 ex) (cat (fun _ => bytes_le 8 r) nil_enc)))))); [|reflexivity|].
      2: { intros p _ _. rewrite cat_assoc. do 4 (apply cat_ext; intros ?). symmetry. apply (cat_nil (fun _ => bytes_le 8 r)). }
      eapply (rch_seq A8 A8 32 0).
      + eapply (rch_sys _ g o e og oo oe); [tauto..|]. apply (sys_room _ _ e). lia.
      + destruct Hk as (_ & _ & _ & Ht & Hf & He & Hr).
        eapply (rch_seq A8 A8 0 0); [apply rch_int; [exact Ht|exact A8_8]| |intros p _ Hp; now apply A8_b8|intros p _ _; apply room].
        eapply (rch_seq A8 A8 0 0); [apply rch_int; [exact Hf|exact A8_8]| |intros p _ Hp; now apply A8_b8|intros p _ _; apply room].
        eapply (rch_seq A8 A8 0 0); [apply rch_int; [exact He|exact A8_8]| |intros p _ Hp; now apply A8_b8|intros p _ _; apply room].
        eapply (rch_seq A8 Any 0 0); [apply rch_int; [exact Hr|exact A8_8]|apply rch_ret|unfold Any; auto|intros p _ _; apply room].
      + intros p _ _. apply sys_end.
      + intros p _ _. rewrite !cat_len, !bytes_zlen. match goal with |- context [zlen (nil_enc ?z)] => change (zlen (nil_enc z)) with 0 end. lia.
  Qed.
End Whole.

Lemma exc_trip dbg mal x a t s : (forall n, mal n = true) -> shows (xbt x) a t -> data_ok (xd x) -> u32_ok (xfmt x) -> x_size x < 2 ^ 32 ->
  o_inside s -> oaddr s mod 8 = 0 -> opos s mod 8 = 0 -> opos s + x_size x <= Z.of_nat (length (odata s)) ->
  exists s', x_write dbg x s = Ok (s', Val tt) /\ only_wrote s s' (x_size x) /\ x_size x mod 8 = 0 /\
    of_bytes_le (slice (odata s') (Z.to_nat (opos s + 4)) (Z.to_nat (opos s + 8))) = x_size x - 8 /\
  forall old data st exc, same_class (xd x) (xd old) -> xfmt old = xfmt x -> length (baddr (xbt old)) = 64%nat ->
    same_bytes s' (opos s) (x_size x) data ->
    exists y, x_read dbg mal old (mkis data (opos s) st exc) = Ok (mkis data (opos s + x_size x) st exc, Val y) /\
      xfmt y = xfmt x /\ xd y = xd x /\ shows (xbt y) a t.
Proof.
  intros Hm Sh Hd Hf Hsz Hs Ha Hp Hr.
  assert (H0 : 0 <= opos s) by (unfold o_inside in Hs; lia).
  pose proof (x_enc_len x a t Sh Hd (opos s) Hp) as L. 
  assert (Hfit : fits s (x_enc x a t (opos s))) by (unfold fits; rewrite L; exact Hr).
  exists (o_after s (x_enc x a t (opos s))). split; [now apply wch_x|].
  destruct (wrote_after s _ Hs Hfit) as [W F]. rewrite L in W, F. split; [exact W|].
  split; [now apply (x_size_8 x a t)|].
  split.
  { pose proof (base_bound x a t Sh) as Bb. pose proof (tail_nonneg x Hd) as Tn. pose proof (zlen_nonneg t) as Zt.
    set (D := odata (o_after s (x_enc x a t (opos s)))) in *. unfold slice.
    replace (Z.to_nat (opos s + 8) - Z.to_nat (opos s + 4))%nat with 4%nat by lia.
    replace (Z.to_nat (opos s + 4)) with (4 + Z.to_nat (opos s))%nat by lia. rewrite <- skipn_skipn.
    rewrite <- (firstn_skipn (Z.to_nat (x_size x)) (skipn (Z.to_nat (opos s)) D)), F.
    unfold x_enc, head_enc, cat. rewrite <- !app_assoc. rewrite skipn_app. rewrite skipn_all2 by (rewrite bytes_le_length; lia).
    rewrite bytes_le_length. change (skipn (4 - 4)) with (fun l : list Z => l). cbv beta. rewrite app_nil_l. rewrite firstn_app, bytes_le_length. change (firstn (4 - 4)) with (fun l : list Z => @nil Z).
    cbv beta. rewrite app_nil_r, firstn_all2 by (rewrite bytes_le_length; lia). apply of_bytes_bytes. change (256 ^ Z.of_nat 4) with (2 ^ 32). lia. }
  intros old data st exc Hc Ho H64 (Hdl & Hfd & Heq). rewrite F in Heq.
  destruct (splits data (opos s) (x_enc x a t (opos s)) st exc H0 ltac:(rewrite L; exact Hfd) Hdl ltac:(rewrite L; exact Heq)) as (pre & post & Lp & Lt & E1 & E2).
  rewrite L in E2. rewrite E1, E2. exists (mkexc (xfmt x) (bt_new a t old) (xd x)).
  pose proof (rch_x dbg x a t Sh Hd Hf Hsz mal Hm old Hc Ho H64 pre post st exc) as R. rewrite Lp in R.
  split; [apply R; [exact Hp|apply zlen_nonneg|exact Lt]|]. split; [reflexivity|]. split; [reflexivity|]. exact (shows_read (xbt x) a t (xbt old) Sh H64).
Qed.
