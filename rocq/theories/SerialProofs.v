(** * SerialProofs: what is written reads back. *)
From Verif Require Import Base UtilModel UtilSpec UtilProofs StoreModel VectorModel VectorSpec VectorProofs.
From Verif Require Import Utf8Model Utf8Spec Utf8Proofs StreamModel StreamSpec StreamProofs SerialModel.
From Coq Require Import ZArith ZifyBool ZifyNat Znumtheory.
Local Open Scope Z_scope.

(** ** Writing in steps *)
Definition zlen {A} (l : list A) : Z := Z.of_nat (length l).
Lemma zlen_app {A} (a b : list A) : zlen (a ++ b) = zlen a + zlen b.
Proof. unfold zlen. rewrite app_length. lia. Qed.
Lemma zlen_nonneg {A} (a : list A) : 0 <= zlen a.
Proof. unfold zlen. lia. Qed.
Lemma zlen_cons {A} (x : A) l : zlen (x :: l) = 1 + zlen l.
Proof. unfold zlen. cbn [length]. lia. Qed.
Definition fits (s : ostream) (l : list Z) : Prop := opos s + zlen l <= zlen (odata s).

Lemma o_after_app s a b : o_inside s -> fits s (a ++ b) -> o_after (o_after s a) b = o_after s (a ++ b).
Proof.
  intros Hs Hf. unfold fits, zlen in Hf. rewrite app_length in Hf. unfold o_inside in Hs.
  unfold o_after. cbn [odata oaddr opos ostate oexc].
  set (D := odata s) in *. set (n := Z.to_nat (opos s)) in *.
  assert (Ln : length (firstn n D) = n) by (rewrite firstn_length; lia).
  replace (Z.to_nat (opos s + Z.of_nat (length a))) with (n + length a)%nat by lia.
  f_equal; [|rewrite app_length; lia].
  assert (E : length (firstn n D ++ a) = (n + length a)%nat) by (rewrite app_length; lia).
  rewrite (app_assoc (firstn n D) a). rewrite firstn_app, E, Nat.sub_diag, firstn_O, app_nil_r.
  rewrite firstn_all2 by lia. rewrite skipn_app. rewrite skipn_all2 by lia. rewrite E.
  replace (n + length a + length b - (n + length a))%nat with (length b) by lia.
  cbn [app]. rewrite skipn_skipn. rewrite <- !app_assoc. do 4 f_equal. rewrite app_length. lia.
Qed.
Lemma fits_l s a b : fits s (a ++ b) -> fits s a.
Proof. unfold fits. rewrite zlen_app. pose proof (zlen_nonneg b). lia. Qed.
Lemma fits_r s a b : o_inside s -> fits s (a ++ b) -> fits (o_after s a) b.
Proof.
  intros Hs H. unfold fits. unfold zlen at 2. rewrite (o_after_length s a Hs (fits_l _ _ _ H)).
  cbn [o_after opos]. unfold fits in H. rewrite zlen_app in H. unfold zlen in *. lia.
Qed.
Lemma after_inside s a b : o_inside s -> fits s (a ++ b) -> o_inside (o_after s a).
Proof. intros Hs H. apply o_after_inside; [exact Hs|]. exact (fits_l _ _ _ H). Qed.
Lemma o_write_fits s l : o_inside s -> fits s l -> o_write l s = Ok (o_after s l, Val true).
Proof.
  intros Hs H. pose proof (o_write_ok s l Hs) as W. unfold fits, zlen in H.
  destruct (Z.leb_spec (opos s + Z.of_nat (length l)) (Z.of_nat (length (odata s)))); [exact W|lia].
Qed.

(** Zeros up to a multiple of [g]. *)
Definition pad (p g : Z) : list Z := repeat 0 (Z.to_nat ((- p) mod g)).
Lemma pad_len p g : 0 < g -> zlen (pad p g) = (- p) mod g.
Proof. intros H. unfold zlen, pad. rewrite repeat_length. pose proof (Z.mod_pos_bound (-p) g H). lia. Qed.
Lemma pad_end p g : 0 < g -> (p + zlen (pad p g)) mod g = 0.
Proof. intros H. rewrite pad_len by exact H. rewrite Zplus_mod_idemp_r. replace (p + - p) with 0 by lia. apply Z.mod_0_l. lia. Qed.
Lemma pad_0 p g : 0 < g -> p mod g = 0 -> pad p g = [].
Proof. intros H E. unfold pad. rewrite Z.mod_opp_l_z by lia. reflexivity. Qed.
Definition grain (g : Z) : Prop := g = 1 \/ g = 2 \/ g = 4 \/ g = 8.
Lemma grain_pos g : grain g -> 0 < g. Proof. unfold grain. lia. Qed.
Lemma o_align_fits s g : o_inside s -> grain g -> oaddr s mod g = 0 -> fits s (pad (opos s) g) ->
  o_align g s = Ok (o_after s (pad (opos s) g), Val tt).
Proof.
  intros Hs Hg Ha Hf.
  assert (exists k, 0 <= k <= 62 /\ g = 2 ^ k) as (k & Hk & E).
  { destruct Hg as [-> | [-> | [-> | ->]]]; [exists 0|exists 1|exists 2|exists 3]; (split; [lia|reflexivity]). }
  pose proof (o_align_ok s k Hs Hk) as A. cbv zeta in A. rewrite <- E in A.
  replace ((- (oaddr s + opos s)) mod g) with ((- opos s) mod g) in A.
  - unfold fits in Hf. rewrite pad_len in Hf by (now apply grain_pos). unfold zlen in Hf.
    destruct (Z.leb_spec (opos s + (- opos s) mod g) (Z.of_nat (length (odata s)))); [exact A|lia].
  - pose proof (grain_pos _ Hg). pose proof (Z.div_mod (oaddr s) g ltac:(lia)) as D. rewrite Ha in D.
    replace (- (oaddr s + opos s)) with (- opos s + (- (oaddr s / g)) * g) by lia. now rewrite Z.mod_add by lia.
Qed.

(** ** Reading in steps: at the end of [pre] *)
Definition rdr (pre l : list Z) (st e : Z) : istream := mkis (pre ++ l) (zlen pre) st e.
Lemma rdr_inside pre l st e : zlen (pre ++ l) < 2 ^ 63 -> i_inside (rdr pre l st e).
Proof. intros H. unfold i_inside, rdr. cbn [ipos idata]. rewrite zlen_app in H. unfold zlen in *. rewrite app_length. lia. Qed.
Lemma rdr_next pre a l st e : mkis (pre ++ a ++ l) (zlen pre + zlen a) st e = rdr (pre ++ a) l st e.
Proof. unfold rdr. rewrite <- app_assoc, zlen_app. reflexivity. Qed.
Lemma slice_here {A} (pre a l : list A) : slice (pre ++ a ++ l) (length pre) (length pre + length a) = a.
Proof.
  unfold slice. rewrite skipn_app, skipn_all, Nat.sub_diag. cbn [app skipn].
  replace (length pre + length a - length pre)%nat with (length a) by lia.
  rewrite firstn_app, firstn_all, Nat.sub_diag, firstn_O, app_nil_r. reflexivity.
Qed.
Lemma rdr_read pre a l st e n : zlen (pre ++ a ++ l) < 2 ^ 63 -> n = zlen a ->
  i_read n (rdr pre (a ++ l) st e) = Ok (rdr (pre ++ a) l st e, Val (Some a)).
Proof.
  intros H ->. pose proof (i_read_ok _ (zlen a) (rdr_inside pre (a ++ l) st e H) (zlen_nonneg a)) as R.
  cbn [rdr ipos idata] in R. rewrite !zlen_app in H.
  destruct (Z.leb_spec (zlen pre + zlen a) (Z.of_nat (length (pre ++ a ++ l)))) as [_ | Hc].
  - rewrite R. f_equal. f_equal.
    + unfold i_at. cbn [rdr idata istate iexc]. apply rdr_next.
    + f_equal. f_equal. unfold zlen. rewrite Z2Nat.inj_add, !Nat2Z.id by lia. apply slice_here.
  - rewrite !app_length in Hc. unfold zlen in *. lia.
Qed.
Lemma rdr_verify pre l st e n : zlen (pre ++ l) < 2 ^ 63 -> 0 <= n <= zlen l ->
  i_verify n (rdr pre l st e) = Ok (rdr pre l st e, Val true).
Proof.
  intros H Hn. pose proof (i_verify_ok _ n (rdr_inside pre l st e H) ltac:(lia)) as R. cbn [rdr ipos idata] in R.
  destruct (Z.leb_spec (zlen pre + n) (Z.of_nat (length (pre ++ l)))) as [_ | Hc]; [exact R|].
  rewrite app_length in Hc. unfold zlen in *. lia.
Qed.
Lemma align_pad p g : 0 <= p < 2 ^ 63 -> grain g -> align p g = Ok (p + (- p) mod g).
Proof.
  intros Hp Hg. pose proof (grain_pos _ Hg) as Hg0.
  destruct (align_ok p g) as (r & E & D & B); [lia|lia|unfold two64, grain in *; lia|].
  rewrite E. f_equal. destruct D as [k ->].
  replace (- p) with ((k * g - p) + (- k) * g) by lia. rewrite Z.mod_add by lia. rewrite Z.mod_small; lia.
Qed.
Lemma rdr_align pre l st e g : zlen (pre ++ pad (zlen pre) g ++ l) < 2 ^ 63 -> grain g ->
  i_align g (rdr pre (pad (zlen pre) g ++ l) st e) = Ok (rdr (pre ++ pad (zlen pre) g) l st e, Val tt).
Proof.
  intros H Hg. pose proof (grain_pos _ Hg) as Hg0. pose proof (rdr_inside _ _ st e H) as Hi.
  unfold i_align. cbn [rdr ipos]. rewrite align_pad; [|rewrite zlen_app in H; pose proof (zlen_nonneg pre);
    pose proof (zlen_nonneg (pad (zlen pre) g ++ l)); lia|exact Hg].
  rewrite <- pad_len by exact Hg0.
  pose proof (i_seek_ok _ (zlen pre + zlen (pad (zlen pre) g)) Hi) as S.
  cbn [rdr idata] in S. rewrite !zlen_app in H.
  match type of S with ?A -> _ => assert (A) as Z0 by (pose proof (zlen_nonneg pre); pose proof (zlen_nonneg (pad (zlen pre) g)); lia); specialize (S Z0) end.
  destruct (Z.leb_spec (zlen pre + zlen (pad (zlen pre) g)) (Z.of_nat (length (pre ++ pad (zlen pre) g ++ l)))) as [_ | Hc].
  - etransitivity; [exact S|]. unfold i_at. cbn [rdr idata istate iexc]. now rewrite rdr_next.
  - rewrite !app_length in Hc. unfold zlen in *. lia.
Qed.

(** ** A codec that works *)
Record good {T} (c : codec T) (ok : T -> Prop) (enc : Z -> T -> list Z) (ap B : Z) : Prop := mkgood {
  g_write : forall x s, ok x -> o_inside s -> oaddr s mod B = 0 -> opos s mod ap = 0 -> fits s (enc (opos s) x) ->
    cwrite c x s = Ok (o_after s (enc (opos s) x), Val tt);
  g_read : forall x old pre l st e, ok x -> zlen pre mod ap = 0 -> zlen (pre ++ enc (zlen pre) x ++ l) < 2 ^ 63 ->
    cread c old (rdr pre (enc (zlen pre) x ++ l) st e) = Ok (rdr (pre ++ enc (zlen pre) x) l st e, Val x);
  g_pos : forall x p, ok x -> 0 <= p -> p mod ap = 0 -> (p + zlen (enc p x)) mod ap = 0;
  g_ap : 0 < ap }.
Arguments g_write {T c ok enc ap B}. Arguments g_read {T c ok enc ap B}. Arguments g_pos {T c ok enc ap B}. Arguments g_ap {T c ok enc ap B}.

Lemma mod_mod_div p a b : 0 < a -> (a | b) -> p mod b = 0 -> p mod a = 0.
Proof. intros Ha D E. destruct (Z.eq_dec b 0) as [-> | Hb].
  - rewrite Zmod_0_r in E. subst. apply Z.mod_0_l. lia.
  - apply Zdivide_mod. apply (Z.divide_trans _ b); [exact D|]. now apply Z.mod_divide in E.
Qed.

(** Integers. *)
Definition int_ok (w : nat) (v : Z) : Prop := 0 <= v < 256 ^ Z.of_nat w.
Definition int_enc (w : nat) (_ v : Z) : list Z := bytes_le w v.
Lemma bytes_zlen w v : zlen (bytes_le w v) = Z.of_nat w.
Proof. unfold zlen. now rewrite bytes_le_length. Qed.
Lemma iread_rdr dbg w v pre l st e : int_ok w v -> (dbg = true -> zlen pre mod Z.of_nat w = 0) -> zlen (pre ++ bytes_le w v ++ l) < 2 ^ 63 ->
  iread dbg w (rdr pre (bytes_le w v ++ l) st e) = Ok (rdr (pre ++ bytes_le w v) l st e, Val (Some v)).
Proof.
  intros Hv Hd H. unfold iread. cbn [rdr ipos].
  replace (dbg && negb (zlen pre mod Z.of_nat w =? 0)) with false.
  - unfold iobind. fold (rdr pre (bytes_le w v ++ l) st e).
    rewrite rdr_read by (auto; now rewrite bytes_zlen). cbn [bind ret]. now rewrite of_bytes_bytes by exact Hv.
  - destruct dbg; [|reflexivity]. rewrite (Hd eq_refl). reflexivity.
Qed.
Lemma iwrite_fits dbg w v s : o_inside s -> (dbg = true -> opos s mod Z.of_nat w = 0) -> fits s (bytes_le w v) ->
  iwrite dbg w v s = Ok (o_after s (bytes_le w v), Val true).
Proof.
  intros Hs Hd Hf. unfold iwrite.
  replace (dbg && negb (opos s mod Z.of_nat w =? 0)) with false.
  - now apply o_write_fits.
  - destruct dbg; [|reflexivity]. rewrite (Hd eq_refl). reflexivity.
Qed.
Lemma good_int dbg w B ap : 0 < ap -> (dbg = true -> (Z.of_nat w | ap)) -> (ap | Z.of_nat w) -> good (c_int dbg w) (int_ok w) (int_enc w) ap B.
Proof.
  intros Ha Hd1 Hd2. split; [| | |exact Ha].
  - intros x s Hx Hs _ Hp Hf. cbn [c_int cwrite]. unfold iobind, int_enc in *.
    rewrite iwrite_fits; [reflexivity|exact Hs| |exact Hf]. intros E. apply (mod_mod_div _ _ ap); auto.
    destruct (Hd1 E) as [k Hk]. destruct w; lia.
  - intros x old pre l st e Hx Hp H. cbn [c_int cread]. unfold iobind, int_enc in *.
    rewrite iread_rdr; [reflexivity|exact Hx| |exact H]. intros E. apply (mod_mod_div _ _ ap); auto.
    destruct (Hd1 E) as [k Hk]. destruct w; lia.
  - intros x p _ _ Hp. unfold int_enc. rewrite bytes_zlen. destruct Hd2 as [k Hk]. rewrite Hk, Z.mod_add by lia. exact Hp.
Qed.

Lemma o_verify_fits s l n : o_inside s -> fits s l -> 0 <= n <= zlen l -> o_verify n s = Ok (s, Val true).
Proof.
  intros Hs Hf Hn. pose proof (o_verify_ok s n Hs ltac:(lia)) as V. unfold fits, zlen in *.
  destruct (Z.leb_spec (opos s + n) (Z.of_nat (length (odata s)))); [exact V|lia].
Qed.

(** Strings. *)
Definition str_ok (l : list Z) : Prop := zlen l < 2 ^ 31.
Definition str_enc (_ : Z) (l : list Z) : list Z := encode (zlen l) ++ l.
Lemma len_char (l : list Z) : str_ok l -> is_char (zlen l).
Proof. intros H. unfold str_ok in H. split; [apply zlen_nonneg|exact H]. Qed.
Lemma str_write_ok l s : str_ok l -> o_inside s -> fits s (str_enc (opos s) l) -> str_write l s = Ok (o_after s (str_enc (opos s) l), Val tt).
Proof.
  intros Hl Hs Hf. unfold str_enc in *. unfold str_write. cbv zeta. unfold str_ok, zlen in Hl.
  rewrite u32_id by lia. rewrite wchar_id by lia. fold (zlen l). unfold iobind, lift.
  rewrite utf8_out_ok by now apply len_char. cbn [bind].
  rewrite (o_verify_fits s (encode (zlen l) ++ l)); [|exact Hs|exact Hf|].
  - cbn [bind]. rewrite o_write_fits; [|exact Hs|exact (fits_l _ _ _ Hf)]. cbn [bind].
    replace (firstn (Z.to_nat (zlen l)) l) with l by (unfold zlen; now rewrite Nat2Z.id, firstn_all).
    rewrite o_write_fits; [|exact (after_inside _ _ _ Hs Hf)|exact (fits_r _ _ _ Hs Hf)]. cbn [bind ret].
    now rewrite o_after_app.
  - fold (zlen (encode (zlen l))). rewrite zlen_app. pose proof (zlen_nonneg (encode (zlen l))). pose proof (zlen_nonneg l). lia.
Qed.
(** Reading the length. *)
Lemma byte_le c : 0 <= c < 256 -> bytes_le 1 c = [c].
Proof. intros H. cbn [bytes_le]. now rewrite Z.mod_small by lia. Qed.
Lemma str_read_gen_ok {X} dbg (rsz : Z -> outcome X) (fill : X -> list Z -> outcome X) old l pre post st e : str_ok l ->
  zlen (pre ++ str_enc (zlen pre) l ++ post) < 2 ^ 63 ->
  str_read_gen dbg rsz fill old (rdr pre (str_enc (zlen pre) l ++ post) st e) =
  match rsz (zlen l) with
  | Ok x => match fill x l with
            | Ok y => Ok (rdr (pre ++ str_enc (zlen pre) l) post st e, Val y)
            | UB => UB | Exn x => Ok (rdr (pre ++ str_enc (zlen pre) l) post st e, Thrown x) | NoFuel => NoFuel
            end
  | UB => UB
  | Exn x => Ok (rdr (pre ++ encode (zlen l)) (l ++ post) st e, Thrown x)
  | NoFuel => NoFuel
  end.
Proof.
  intros Hl H. pose proof (len_char l Hl) as Hc. unfold str_enc in *.
  pose proof (parts_ok (zlen l) Hc) as P. destruct (parts (zlen l)) as [[c cs] x]. destruct P as (E & C & L & _).
  pose proof (encode_length (zlen l) Hc) as N.
  pose proof (utf8_read_ok [] (zlen l) [] Hc) as R. rewrite app_nil_r in R. cbn [app length] in R.
  rewrite E in *. cbn [length] in N.
  unfold str_read_gen, iobind.
  replace (((c :: cs) ++ l) ++ post) with (bytes_le 1 c ++ (cs ++ l ++ post)) by (rewrite byte_le by exact C; now rewrite <- !app_assoc).
  rewrite <- app_assoc in H. change ((c :: cs) ++ l ++ post) with ([c] ++ cs ++ l ++ post) in H. rewrite <- (byte_le c C) in H.
  rewrite iread_rdr; [|unfold int_ok; change (Z.of_nat 1) with 1; lia|intros _; change (Z.of_nat 1) with 1; now rewrite Z.mod_1_r|exact H].
  rewrite byte_le in H |- * by exact C. cbn [bind]. unfold lift. rewrite seq_bytes_lead by exact C. cbn [bind].
  rewrite app_assoc in H.
  assert (K : lead c - 1 = zlen cs) by (unfold zlen; lia).
  rewrite rdr_verify; [|exact H|rewrite K, zlen_app; pose proof (zlen_nonneg cs); pose proof (zlen_nonneg (l ++ post)); lia]. cbn [bind].
  rewrite rdr_read; [|exact H|exact K]. cbn [bind given]. rewrite R. cbn [bind snd].
  assert (U : u64 (zlen l) = zlen l) by (apply u64_id; unfold is_char in Hc; lia). rewrite U.
  rewrite app_assoc in H.
  rewrite rdr_verify; [|exact H|rewrite zlen_app; pose proof (zlen_nonneg l); pose proof (zlen_nonneg post); lia]. cbn [bind].
  replace ((pre ++ [c]) ++ cs) with (pre ++ c :: cs) in * by now rewrite <- app_assoc.
  destruct (rsz (zlen l)) as [y| |x'|]; cbn [bind]; try reflexivity.
  rewrite rdr_read; [|exact H|reflexivity]. cbn [bind]. rewrite <- app_assoc.
  destruct (fill y l); cbn [bind]; try reflexivity.
Qed.
Lemma good_string dbg B : good (c_string dbg) str_ok str_enc 1 B.
Proof.
  split; [| | |lia].
  - intros x s Hx Hs _ _ Hf. now apply str_write_ok.
  - intros x old pre l st e Hx _ H. cbn [c_string cread]. unfold str_read. rewrite str_read_gen_ok by assumption. reflexivity.
  - intros x p _ _ _. apply Z.mod_1_r.
Qed.

(** Containers. *)
Section Container.
  Variable dbg : bool.
  Context {T : Type}.
  Variables (c : codec T) (ok : T -> Prop) (enc : Z -> T -> list Z) (ap B : Z).
  Hypothesis Hg : good c ok enc ap B.
  Fixpoint encs (p : Z) (l : list T) : list Z :=
    match l with [] => [] | x :: t => enc p x ++ encs (p + zlen (enc p x)) t end.
  Lemma nr_write_ok l : forall s, Forall ok l -> o_inside s -> oaddr s mod B = 0 -> opos s mod ap = 0 -> fits s (encs (opos s) l) ->
    nr_write c l s = Ok (o_after s (encs (opos s) l), Val tt).
  Proof.
    induction l as [|x t IH]; intros s Hl Hs Hb Hp Hf; cbn [nr_write encs] in *.
    - now rewrite o_after_nil.
    - inversion Hl as [|x' t' Hx Ht]; subst. unfold iobind.
      rewrite (g_write Hg); [|auto..|exact (fits_l _ _ _ Hf)]. cbn [bind].
      rewrite IH; cbn [o_after opos oaddr]; [|exact Ht|exact (after_inside _ _ _ Hs Hf)|exact Hb| |].
      + fold (zlen (enc (opos s) x)). now rewrite o_after_app.
      + apply (g_pos Hg); auto. unfold o_inside in Hs. lia.
      + exact (fits_r _ _ _ Hs Hf).
  Qed.
  Lemma nr_read_ok l : forall olds pre post st e, Forall ok l -> length olds = length l -> zlen pre mod ap = 0 ->
    zlen (pre ++ encs (zlen pre) l ++ post) < 2 ^ 63 ->
    nr_read c olds (rdr pre (encs (zlen pre) l ++ post) st e) = Ok (rdr (pre ++ encs (zlen pre) l) post st e, Val l).
  Proof.
    induction l as [|x t IH]; intros olds pre post st e Hl Ho Hp H; cbn [encs] in *.
    - destruct olds; [|discriminate]. cbn [nr_read app]. now rewrite app_nil_r.
    - destruct olds as [|o os]; [discriminate|]. inversion Hl as [|x' t' Hx Ht]; subst. cbn [nr_read]. unfold iobind.
      rewrite <- app_assoc in H |- *.
      rewrite (g_read Hg) by auto. cbn [bind]. rewrite <- zlen_app in H |- *. rewrite app_assoc in H.
      rewrite IH; [|exact Ht|cbn [length] in Ho; lia|rewrite zlen_app; apply (g_pos Hg); auto; apply zlen_nonneg|exact H].
      cbn [bind ret]. now rewrite <- app_assoc.
  Qed.
  Lemma encs_pos l : forall p, Forall ok l -> 0 <= p -> p mod ap = 0 -> (p + zlen (encs p l)) mod ap = 0.
  Proof.
    induction l as [|x t IH]; intros p Hl H0 Hp; cbn [encs].
    - now rewrite Z.add_0_r.
    - inversion Hl as [|x' t' Hx Ht]; subst. rewrite zlen_app, Z.add_assoc. apply IH; auto.
      + pose proof (zlen_nonneg (enc p x)). lia.
      + apply (g_pos Hg); auto.
  Qed.
  (** The least an element takes. *)
  Lemma encs_room d : 0 <= d -> (forall x p, ok x -> 0 <= p -> p mod ap = 0 -> zlen (enc p x) < 2 ^ 63 -> d <= zlen (enc p x)) ->
    forall l p, Forall ok l -> 0 <= p -> p mod ap = 0 -> zlen (encs p l) < 2 ^ 63 -> zlen l * d <= zlen (encs p l).
  Proof.
    intros Hd Hr l. induction l as [|x t IH]; intros p Hl H0 Hp H; cbn [encs] in *.
    - change (zlen (@nil T)) with 0. change (zlen (@nil Z)) with 0. lia.
    - inversion Hl as [|x' t' Hx Ht]; subst. rewrite zlen_app in *. rewrite zlen_cons.
      pose proof (zlen_nonneg (enc p x)). pose proof (zlen_nonneg (encs (p + zlen (enc p x)) t)).
      pose proof (Hr x p Hx H0 Hp ltac:(lia)).
      specialize (IH (p + zlen (enc p x)) Ht ltac:(lia) ltac:(now apply (g_pos Hg)) ltac:(lia)). lia.
  Qed.
  (** Sum of sizes. *)
  Definition exact_at (a : Z) : Prop := forall x p, ok x -> 0 <= p -> p mod a = 0 -> zlen (enc p x) = csize c x.
  Definition bounded : Prop := forall x p, ok x -> 0 <= p -> p mod ap = 0 -> zlen (enc p x) <= csize c x.
  Lemma encs_exact l : exact_at ap -> forall p, Forall ok l -> 0 <= p -> p mod ap = 0 -> zlen (encs p l) = sum_sizes c l.
  Proof.
    intros He. induction l as [|x t IH]; intros p Hl H0 Hp; cbn [encs sum_sizes]; [reflexivity|].
    inversion Hl as [|x' t' Hx Ht]; subst. rewrite zlen_app, <- (He x p Hx H0 Hp). pose proof (zlen_nonneg (enc p x)).
    rewrite IH; auto; [lia|now apply (g_pos Hg)].
  Qed.
  Lemma encs_bounded l : bounded -> forall p, Forall ok l -> 0 <= p -> p mod ap = 0 -> zlen (encs p l) <= sum_sizes c l.
  Proof.
    intros He. induction l as [|x t IH]; intros p Hl H0 Hp; cbn [encs sum_sizes]; [change (zlen (@nil Z)) with 0; lia|].
    inversion Hl as [|x' t' Hx Ht]; subst. rewrite zlen_app. pose proof (He x p Hx H0 Hp). pose proof (zlen_nonneg (enc p x)).
    specialize (IH (p + zlen (enc p x)) Ht ltac:(lia) ltac:(now apply (g_pos Hg))). lia.
  Qed.

  (** The whole container. *)
  Definition gap (p : Z) : list Z := if 4 <? calign c then pad p (calign c) else [].
  Definition ctr_ok (l : list T) : Prop := Forall ok l /\ zlen l < 2 ^ 32.
  Definition ctr_body (p : Z) (l : list T) : list Z := gap p ++ encs (p + zlen (gap p)) l.
  Definition ctr_enc (p : Z) (l : list T) : list Z :=
    bytes_le 4 (zlen l) ++ ctr_body (p + 4) l ++ pad (p + 4 + zlen (ctr_body (p + 4) l)) 4.
  Hypothesis Hgrain : grain (calign c).
  Hypothesis HB : (4 | B) /\ (calign c | B).
  Hypothesis Hap : (ap | if 4 <? calign c then calign c else 4).
  Lemma gap_end p : 0 <= p -> p mod 4 = 0 -> (p + zlen (gap p)) mod ap = 0.
  Proof.
    intros H0 Hp. unfold gap. destruct (4 <? calign c) eqn:E.
    - apply (mod_mod_div _ _ (calign c)); [exact (g_ap Hg)|exact Hap|]. apply pad_end. now apply grain_pos.
    - rewrite Z.add_0_r. apply (mod_mod_div _ _ 4); auto. exact (g_ap Hg).
  Qed.
  Lemma mod4_4 p : p mod 4 = 0 -> (p + 4) mod 4 = 0.
  Proof. intros H. replace (p + 4) with (p + 1 * 4) by lia. now rewrite Z.mod_add by lia. Qed.
  Lemma o_base s a : oaddr s mod B = 0 -> (a | B) -> 0 < a -> oaddr s mod a = 0.
  Proof. intros H D P. now apply (mod_mod_div _ _ B). Qed.
  Lemma ctr_write_ok l s : ctr_ok l -> o_inside s -> oaddr s mod B = 0 -> opos s mod 4 = 0 -> fits s (ctr_enc (opos s) l) ->
    container_write dbg c l s = Ok (o_after s (ctr_enc (opos s) l), Val tt).
  Proof.
    intros (Hl & Hn) Hs Hb Hp Hf. unfold container_write, iobind. fold (zlen l).
    pose proof (zlen_nonneg l) as H0. rewrite u32_id by lia. unfold ctr_enc in *.
    set (q := opos s + 4) in *.
    rewrite iwrite_fits; [|exact Hs|intros _; exact Hp|exact (fits_l _ _ _ Hf)]. cbn [bind].
    pose proof (after_inside _ _ _ Hs Hf) as Hs1. apply (fits_r _ _ _ Hs) in Hf as Hf1.
    set (s1 := o_after s (bytes_le 4 (zlen l))) in *.
    assert (P1 : opos s1 = q) by (subst s1 q; cbn [o_after opos]; rewrite bytes_le_length; reflexivity).
    assert (Hq : q mod 4 = 0) by now apply mod4_4.
    assert (H0q : 0 <= q) by (unfold q; unfold o_inside in Hs; lia).
    assert (A : (if 4 <? calign c then o_align (calign c) else ret tt) s1 = Ok (o_after s1 (gap q), Val tt)).
    { unfold gap. unfold ctr_body in Hf1. unfold gap in Hf1. destruct (4 <? calign c).
      - rewrite <- P1 in Hf1 |- *. apply o_align_fits; [exact Hs1|exact Hgrain| |].
        + apply o_base; [exact Hb|tauto|now apply grain_pos].
        + rewrite <- app_assoc in Hf1. exact (fits_l _ _ _ Hf1).
      - rewrite o_after_nil. reflexivity. }
    rewrite A. cbn [bind]. unfold ctr_body in *. rewrite <- app_assoc in Hf1.
    pose proof (after_inside _ _ _ Hs1 Hf1) as Hs2. apply (fits_r _ _ _ Hs1) in Hf1 as Hf2.
    set (s2 := o_after s1 (gap q)) in *.
    assert (P2 : opos s2 = q + zlen (gap q)) by (subst s2; cbn [o_after opos]; rewrite P1; reflexivity).
    rewrite nr_write_ok; [|exact Hl|exact Hs2|exact Hb|rewrite P2; now apply gap_end|rewrite P2; exact (fits_l _ _ _ Hf2)].
    cbn [bind]. rewrite P2.
    pose proof (after_inside _ _ _ Hs2 Hf2) as Hs3. apply (fits_r _ _ _ Hs2) in Hf2 as Hf3.
    set (s3 := o_after s2 (encs (q + zlen (gap q)) l)) in *.
    assert (P3 : opos s3 = q + zlen (gap q ++ encs (q + zlen (gap q)) l)) by (subst s3; cbn [o_after opos]; rewrite P2, zlen_app; unfold zlen; lia).
    rewrite <- P3 in Hf3 |- *. rewrite o_align_fits; [|exact Hs3|unfold grain; lia|apply o_base; [exact Hb|tauto|lia]|exact Hf3].
    subst s3 s2 s1. rewrite <- !app_assoc in *. rewrite P3 in *.
    rewrite o_after_app; [|exact Hs2|exact Hf2]. rewrite o_after_app; [|exact Hs1|exact Hf1]. rewrite o_after_app; [reflexivity|exact Hs|exact Hf].
  Qed.
  Hypothesis Hroom : 0 <= csize c (cdflt c) /\ forall x p, ok x -> 0 <= p -> p mod ap = 0 -> zlen (enc p x) < 2 ^ 63 -> csize c (cdflt c) <= zlen (enc p x).
  Lemma seq_resize_length {A} (l : list A) n d : length (seq_resize l n d) = n.
  Proof. unfold seq_resize. rewrite app_length, firstn_length, repeat_length. lia. Qed.
  Lemma ctr_read_gen_ok {X} (rsz : Z -> outcome (X * list T)) (fill : X -> list T -> outcome X) old l pre post st e x0 olds y :
    ctr_ok l -> zlen pre mod 4 = 0 -> zlen (pre ++ ctr_enc (zlen pre) l ++ post) < 2 ^ 63 ->
    rsz (zlen l) = Ok (x0, olds) -> length olds = length l -> fill x0 l = Ok y ->
    container_read_gen dbg c rsz fill old (rdr pre (ctr_enc (zlen pre) l ++ post) st e) =
    Ok (rdr (pre ++ ctr_enc (zlen pre) l) post st e, Val y).
  Proof.
    intros (Hl & Hn) Hp H Hr Ho Hfl. unfold container_read_gen, iobind. unfold ctr_enc in *.
    pose proof (zlen_nonneg l) as H0. pose proof (zlen_nonneg pre) as H0p.
    set (bd := ctr_body (zlen pre + 4) l) in *. set (pd := pad (zlen pre + 4 + zlen bd) 4) in *.
    set (hd := bytes_le 4 (zlen l)) in *. rewrite <- !app_assoc in H |- *.
    unfold hd in *. rewrite iread_rdr; [|split; [lia|exact Hn]|intros _; exact Hp|exact H]. fold hd in H |- *. cbn [bind].
    assert (Lh : zlen hd = 4) by (unfold hd; now rewrite bytes_zlen).
    rewrite app_assoc in H. set (pre1 := pre ++ hd) in *.
    assert (L1 : zlen pre1 = zlen pre + 4) by (unfold pre1; rewrite zlen_app; lia).
    assert (M1 : zlen pre1 mod 4 = 0) by (rewrite L1; now apply mod4_4).
    unfold bd, ctr_body in *. rewrite <- L1 in *. rewrite <- !app_assoc in H |- *.
    set (es := encs (zlen pre1 + zlen (gap (zlen pre1))) l) in *.
    pose proof (gap_end (zlen pre1) (zlen_nonneg _) M1) as Mg.
    assert (Le : zlen es < 2 ^ 63) by (rewrite !zlen_app in H; pose proof (zlen_nonneg pre1); pose proof (zlen_nonneg (gap (zlen pre1)));
      pose proof (zlen_nonneg pd); pose proof (zlen_nonneg post); lia).
    assert (R : zlen l * csize c (cdflt c) <= zlen es)
      by (apply encs_room; try tauto; pose proof (zlen_nonneg pre1); pose proof (zlen_nonneg (gap (zlen pre1))); lia).
    assert (R0 : 0 <= zlen l * csize c (cdflt c)) by (apply Z.mul_nonneg_nonneg; tauto).
    rewrite u64_id by lia.
    rewrite rdr_verify; [|exact H|rewrite !zlen_app; pose proof (zlen_nonneg (gap (zlen pre1))); pose proof (zlen_nonneg pd); pose proof (zlen_nonneg post); lia].
    cbn [bind].
    assert (A : (if 4 <? calign c then i_align (calign c) else ret tt) (rdr pre1 (gap (zlen pre1) ++ es ++ pd ++ post) st e) =
                Ok (rdr (pre1 ++ gap (zlen pre1)) (es ++ pd ++ post) st e, Val tt)).
    { revert H. unfold gap at 1 2 3. destruct (4 <? calign c); intros H.
      - apply rdr_align; assumption.
      - rewrite app_nil_r. reflexivity. }
    rewrite A. cbn [bind]. unfold lift. rewrite Hr. cbn [bind fst snd]. rewrite app_assoc in H.
    set (pre2 := pre1 ++ gap (zlen pre1)) in *.
    assert (L2 : zlen pre2 = zlen pre1 + zlen (gap (zlen pre1))) by (unfold pre2; now rewrite zlen_app).
    unfold es in *. rewrite <- L2 in *. 
    rewrite nr_read_ok; [|exact Hl|exact Ho|exact Mg|exact H]. cbn [bind]. rewrite Hfl. cbn [bind].
    rewrite app_assoc in H. set (pre3 := pre2 ++ encs (zlen pre2) l) in *.
    assert (Epd : pd = pad (zlen pre3) 4).
    { unfold pd. f_equal. unfold pre3. rewrite !zlen_app. rewrite <- !L1, <- L2. lia. }
    rewrite Epd in *.
    rewrite rdr_align; [|exact H|unfold grain; lia]. cbn [bind ret]. unfold pre3, pre2, pre1. rewrite <- !app_assoc. reflexivity.
  Qed.
End Container.

(** ** Sizes *)
Lemma align_up_pad n g : 0 <= n < 2 ^ 63 -> grain g -> align_up n g = n + (- n) mod g.
Proof.
  intros Hn Hg. pose proof (grain_pos _ Hg) as Hp. unfold align_up. cbv zeta.
  rewrite u64_id by (unfold grain in Hg; lia).
  pose proof (Z.mod_pos_bound (n + g - 1) g Hp) as B1. pose proof (Z.mod_pos_bound (- n) g Hp) as B2.
  pose proof (Z.div_mod (n + g - 1) g ltac:(lia)) as D1. pose proof (Z.div_mod (- n) g ltac:(lia)) as D2.
  set (q1 := (n + g - 1) / g) in *. set (q2 := (- n) / g) in *.
  assert (q1 = - q2) by nia. nia.
Qed.
Lemma align_up_le n g : 0 <= n < 2 ^ 62 -> grain g -> n <= align_up n g < n + 8 /\ align_up n g < 2 ^ 63.
Proof.
  intros Hn Hg. rewrite align_up_pad by (auto; lia). pose proof (Z.mod_pos_bound (- n) g (grain_pos _ Hg)).
  unfold grain in Hg. lia.
Qed.
Lemma neg_shift p n g : 0 < g -> p mod g = 0 -> (- (p + n)) mod g = (- n) mod g.
Proof.
  intros Hg Hp. pose proof (Z.div_mod p g ltac:(lia)) as D.
  replace (- (p + n)) with (- n + (- (p / g)) * g) by lia. now rewrite Z.mod_add by lia.
Qed.
Lemma align_up_mono a b g : a <= b -> 0 <= a -> b < 2 ^ 62 -> grain g -> align_up a g <= align_up b g.
Proof.
  intros H Ha Hb Hg. rewrite !align_up_pad by (auto; lia). pose proof (grain_pos _ Hg) as Hp.
  pose proof (Z.mod_pos_bound (- a) g Hp). pose proof (Z.mod_pos_bound (- b) g Hp).
  pose proof (Z.div_mod (- a) g ltac:(lia)). pose proof (Z.div_mod (- b) g ltac:(lia)).
  pose proof (Z.div_le_mono (- b) (- a) g ltac:(lia) ltac:(lia)). nia.
Qed.

(** Everything one wants of an element type: it reads back, its stream_size is
    exact where it may stand, and that of a default object is the least. *)
Definition exact {T} (c : codec T) (ok : T -> Prop) (enc : Z -> T -> list Z) (a : Z) : Prop :=
  forall x p, ok x -> 0 <= p -> p mod a = 0 -> zlen (enc p x) < 2 ^ 62 -> zlen (enc p x) = csize c x.
Definition roomy {T} (c : codec T) (ok : T -> Prop) (enc : Z -> T -> list Z) (a : Z) : Prop :=
  0 <= csize c (cdflt c) /\ forall x p, ok x -> 0 <= p -> p mod a = 0 -> zlen (enc p x) < 2 ^ 63 -> csize c (cdflt c) <= zlen (enc p x).
Record elem {T} (c : codec T) (ok : T -> Prop) (enc : Z -> T -> list Z) (ap B : Z) : Prop := mkelem {
  e_good : good c ok enc ap B;
  e_exact : exact c ok enc ap;
  e_roomy : roomy c ok enc ap;
  e_grain : grain (calign c);
  e_ap : (ap | if 4 <? calign c then calign c else 4);
  e_B : (4 | B) /\ (calign c | B) }.
Arguments e_good {T c ok enc ap B}. Arguments e_exact {T c ok enc ap B}. Arguments e_roomy {T c ok enc ap B}.
Arguments e_grain {T c ok enc ap B}. Arguments e_ap {T c ok enc ap B}. Arguments e_B {T c ok enc ap B}.

Lemma elem_int dbg w B : In w [1; 2; 4; 8]%nat -> (4 | B) -> (Z.of_nat w | B) -> elem (c_int dbg w) (int_ok w) (int_enc w) (Z.of_nat w) B.
Proof.
  intros Hw H4 HB. assert (Hz : grain (Z.of_nat w)) by (unfold grain; destruct Hw as [<- | [<- | [<- | [<- | []]]]]; lia).
  split.
  - apply good_int; [now apply grain_pos|intros _; apply Z.divide_refl|apply Z.divide_refl].
  - intros x p _ _ _ _. unfold int_enc. now rewrite bytes_zlen.
  - split; [cbn [c_int csize]; unfold grain in Hz; lia|]. intros x p _ _ _ _. unfold int_enc. rewrite bytes_zlen. cbn [c_int csize]. lia.
  - exact Hz.
  - cbn [c_int calign]. destruct (4 <? Z.of_nat w) eqn:E; [apply Z.divide_refl|].
    destruct Hz as [-> | [-> | [-> | Hz]]]; [exists 4|exists 2|exists 1|]; lia.
  - split; assumption.
Qed.
Lemma elem_string dbg B : (4 | B) -> elem (c_string dbg) str_ok str_enc 1 B.
Proof.
  intros H4. split.
  - apply good_string.
  - intros x p Hx _ _ _. unfold str_enc. cbn [c_string csize]. unfold str_stream_size. rewrite zlen_app. fold (zlen x).
    pose proof (len_char x Hx) as C. rewrite utf8_bytes_len by (unfold is_char in C; lia). rewrite <- encode_length by exact C. reflexivity.
  - split; [vm_compute; discriminate|]. intros x p Hx _ _ _. unfold str_enc. rewrite zlen_app.
    pose proof (encode_pos (zlen x) (len_char x Hx)). pose proof (zlen_nonneg x). change (csize (c_string dbg) (cdflt (c_string dbg))) with 1. unfold zlen at 1. lia.
  - unfold grain; cbn [c_string calign]; lia.
  - cbn [c_string calign]. exists 4. reflexivity.
  - cbn [c_string calign]. split; [assumption|apply Z.divide_1_l].
Qed.

Section ContainerSizes.
  Variable dbg : bool.
  Context {T : Type}.
  Variables (c : codec T) (ok : T -> Prop) (enc : Z -> T -> list Z) (ap B : Z).
  Hypothesis He : elem c ok enc ap B.
  Let Hg : good c ok enc ap B := e_good He.
  Local Notation Cenc := (ctr_enc c enc).
  Local Notation Cok := (ctr_ok ok).
  Lemma ctr_pos l p : Cok l -> 0 <= p -> p mod 4 = 0 -> (p + zlen (Cenc p l)) mod 4 = 0.
  Proof.
    intros _ H0 Hp. unfold ctr_enc. rewrite !zlen_app, bytes_zlen, !Z.add_assoc. rewrite <- (Z.add_assoc (p + 4)).
    change (Z.of_nat 4) with 4. rewrite <- zlen_app.
    set (b := zlen (ctr_body c enc (p + 4) l)). rewrite zlen_app. rewrite Z.add_assoc. apply pad_end. lia.
  Qed.
  Lemma good_container : good (c_container dbg c) Cok Cenc 4 B.
  Proof.
    split; [| | |lia].
    - intros x s Hx Hs Hb Hp Hf. cbn [c_container cwrite]. apply (ctr_write_ok dbg c ok enc ap B Hg); auto.
      + exact (e_grain He).
      + exact (e_B He).
      + exact (e_ap He).
    - intros x old pre l st e Hx Hp H. cbn [c_container cread]. unfold container_read.
      apply (ctr_read_gen_ok dbg c ok enc ap B Hg) with (x0 := seq_resize old (Z.to_nat (zlen x)) (cdflt c)) (olds := seq_resize old (Z.to_nat (zlen x)) (cdflt c)); auto.
      + exact (e_grain He).
      + exact (e_B He).
      + exact (e_ap He).
      + exact (e_roomy He).
      + rewrite seq_resize_length. unfold zlen. now rewrite Nat2Z.id.
    - intros x p Hx H0 Hp. now apply ctr_pos.
  Qed.
  Lemma sum_exact l : forall p, Forall ok l -> 0 <= p -> p mod ap = 0 -> zlen (encs enc p l) < 2 ^ 62 -> zlen (encs enc p l) = sum_sizes c l.
  Proof.
    induction l as [|x t IH]; intros p Hl H0 Hp H; cbn [encs sum_sizes]; [reflexivity|].
    inversion Hl as [|x' t' Hx Ht]; subst. cbn [encs] in H. rewrite zlen_app in H |- *.
    pose proof (zlen_nonneg (enc p x)). pose proof (zlen_nonneg (encs enc (p + zlen (enc p x)) t)).
    rewrite <- (e_exact He x p Hx H0 Hp) by lia.
    rewrite IH; auto; try lia. now apply (g_pos Hg).
  Qed.
  Lemma sum_const l : (forall x y, In x l -> In y l -> csize c x = csize c y) ->
    forall x, In x l -> csize c x * Z.of_nat (length l) = sum_sizes c l.
  Proof.
    induction l as [|y t IH]; intros Hc x Hx; [destruct Hx|]. cbn [sum_sizes length].
    destruct t as [|z t].
    - cbn [sum_sizes length]. destruct Hx as [-> | []]. lia.
    - rewrite <- (IH ltac:(intros; apply Hc; now right) z ltac:(now left)).
      rewrite (Hc x z) by (auto; right; now left). rewrite (Hc y z) by (first [now left|right; now left]). lia.
  Qed.
  Definition const_ok (const : bool) (l : list T) : Prop := const = true -> forall x y, In x l -> In y l -> csize c x = csize c y.
  Lemma nr_size_exact const l p : const_ok const l -> Forall ok l -> 0 <= p -> p mod ap = 0 -> zlen (encs enc p l) < 2 ^ 62 ->
    nr_stream_size c const l = zlen (encs enc p l).
  Proof.
    intros Hc Hl H0 Hp H. pose proof (sum_exact l p Hl H0 Hp H) as S. pose proof (zlen_nonneg (encs enc p l)) as N.
    unfold nr_stream_size. destruct l as [|x t]; [reflexivity|].
    assert (E : (if const then csize c x * Z.of_nat (length (x :: t)) else sum_sizes c (x :: t)) = sum_sizes c (x :: t)).
    { destruct const; [|reflexivity]. apply sum_const; [now apply Hc|now left]. }
    destruct const; [rewrite E|]; rewrite u64_id by lia; now symmetry.
  Qed.
  (** The size counts from a position that is a multiple of 8 when the elements are. *)
  Lemma ctr_size const l p : const_ok const l -> Cok l -> 0 <= p -> p mod 4 = 0 -> zlen (Cenc p l) < 2 ^ 62 ->
    zlen (Cenc p l) <= container_stream_size c const l <= zlen (Cenc p l) + 4 /\
    (calign c <= 4 \/ p mod 8 = 0 -> container_stream_size c const l = zlen (Cenc p l)).
  Proof.
    intros Hc (Hl & Hn) H0 Hp H. unfold container_stream_size. cbv zeta. unfold ctr_enc in *.
    pose proof (gap_end c ok enc ap B Hg (e_grain He) (e_ap He)) as Ge.
    assert (G : gap c (p + 4) = (if 4 <? calign c then pad (p + 4) 8 else [])).
    { unfold gap. destruct (4 <? calign c) eqn:E; [|reflexivity]. pose proof (e_grain He) as Gr. unfold grain in Gr.
      replace (calign c) with 8 by lia. reflexivity. }
    assert (Hs0 : (if 4 <? calign c then align_up 4 (calign c) else 4) = if 4 <? calign c then 8 else 4).
    { destruct (4 <? calign c) eqn:E; [|reflexivity]. pose proof (e_grain He) as Gr. unfold grain in Gr.
      replace (calign c) with 8 by lia. reflexivity. }
    rewrite Hs0. specialize (Ge (p + 4) ltac:(lia) (mod4_4 p Hp)).
    unfold ctr_body in *. set (g := gap c (p + 4)) in *. rewrite !zlen_app in *. rewrite bytes_zlen in *. change (Z.of_nat 4) with 4 in *.
    pose proof (zlen_nonneg g) as Ng. set (es := encs enc (p + 4 + zlen g) l) in *. pose proof (zlen_nonneg es) as Ne.
    rewrite pad_len in * by lia.
    pose proof (Z.mod_pos_bound (- (p + 4 + (zlen g + zlen es))) 4 ltac:(lia)) as Bp.
    rewrite (nr_size_exact const l (p + 4 + zlen g)) by (auto; fold es; lia). fold es.
    assert (Lg : zlen g = if 4 <? calign c then (- (p + 4)) mod 8 else 0).
    { rewrite G. destruct (4 <? calign c); [apply pad_len; lia|reflexivity]. }
    assert (Sh : (- (p + 4 + (zlen g + zlen es))) mod 4 = (- zlen es) mod 4).
    { replace (p + 4 + (zlen g + zlen es)) with ((p + 4 + zlen g) + zlen es) by lia. apply neg_shift; [lia|].
      rewrite Lg. destruct (4 <? calign c).
      - apply (mod_mod_div _ 4 8); [lia|exists 2; reflexivity|]. rewrite Zplus_mod_idemp_r. replace (p + 4 + - (p + 4)) with 0 by lia. reflexivity.
      - rewrite Z.add_0_r. now apply mod4_4. }
    rewrite Sh. set (k := if 4 <? calign c then 8 else 4).
    assert (Hk : k = 8 \/ k = 4) by (unfold k; destruct (4 <? calign c); lia).
    rewrite align_up_pad; [|lia|unfold grain; lia].
    rewrite (neg_shift k (zlen es) 4) by (destruct Hk as [-> | ->]; first [lia|reflexivity]).
    unfold k. destruct (Z.ltb_spec 4 (calign c)) as [Hlt | Hge].
    - assert (Lg2 : zlen g = 0 \/ zlen g = 4).
      { rewrite Lg. pose proof (Z.mod_pos_bound (- (p + 4)) 8 ltac:(lia)). pose proof (Z.div_mod (- (p + 4)) 8 ltac:(lia)).
        pose proof (Z.div_mod p 4 ltac:(lia)). lia. }
      split; [lia|]. intros [Hc4 | Hp8]; [lia|].
      replace (zlen g) with 4; [lia|]. rewrite Lg. rewrite (neg_shift p 4 8) by (auto; lia). reflexivity.
    - rewrite Lg. split; [lia|]. lia.
  Qed.
  Lemma sum_dflt : container_stream_size c false [] = if 4 <? calign c then 8 else 4.
  Proof.
    unfold container_stream_size. destruct (4 <? calign c) eqn:E; [|reflexivity].
    pose proof (e_grain He) as Gr. unfold grain in Gr. replace (calign c) with 8 by lia. reflexivity.
  Qed.
  Lemma elem_container : calign c <= 4 -> elem (c_container dbg c) Cok Cenc 4 B.
  Proof.
    intros Hc. split.
    - exact good_container.
    - intros x p Hx H0 Hp H. symmetry. cbn [c_container csize]. apply (ctr_size false x p); auto. discriminate.
    - split; [cbn [c_container csize cdflt]; rewrite sum_dflt; destruct (4 <? calign c); lia|].
      intros x p Hx H0 Hp _. cbn [c_container csize cdflt]. rewrite sum_dflt.
      destruct (Z.ltb_spec 4 (calign c)); [lia|]. unfold ctr_enc. rewrite !zlen_app, bytes_zlen. change (Z.of_nat 4) with 4.
      pose proof (zlen_nonneg (ctr_body c enc (p + 4) x)). pose proof (zlen_nonneg (pad (p + 4 + zlen (ctr_body c enc (p + 4) x)) 4)). lia.
    - cbn [c_container calign]. unfold grain. lia.
    - cbn [c_container calign]. exists 1. reflexivity.
    - cbn [c_container calign]. pose proof (e_B He). tauto.
  Qed.
End ContainerSizes.

(** ** Arrays *)
Lemma mod_sum_0 a b g : 0 < g -> a mod g = 0 -> b mod g = 0 -> (a + b) mod g = 0.
Proof. intros H A B. rewrite Z.add_mod, A, B by lia. apply Z.mod_0_l. lia. Qed.
Section Array.
  Context {T : Type}.
  Variables (c : codec T) (ok : T -> Prop) (enc : Z -> T -> list Z) (ap B : Z).
  Hypothesis He : elem c ok enc ap B.
  Variables (tup : bool) (n : nat).
  Let Hg : good c ok enc ap B := e_good He.
  Definition arr_ok (l : list T) : Prop := Forall ok l /\ length l = n.
  Lemma good_array : good (c_array tup n c) arr_ok (encs enc) ap B.
  Proof.
    split; [| | |exact (g_ap Hg)].
    - intros l s (Hl & _) Hs Hb Hp Hf. cbn [c_array cwrite]. exact (nr_write_ok c ok enc ap B Hg l s Hl Hs Hb Hp Hf).
    - intros l old pre post st e (Hl & Hn) Hp H. cbn [c_array cread].
      apply (nr_read_ok c ok enc ap B Hg); auto. now rewrite seq_resize_length.
    - intros l p (Hl & _) H0 Hp. now apply (encs_pos c ok enc ap B Hg).
  Qed.
  Lemma sum_repeat d k : sum_sizes c (repeat d k) = Z.of_nat k * csize c d.
  Proof. induction k as [|k IH]; cbn [repeat sum_sizes]; [reflexivity|]. rewrite IH. lia. Qed.
  Lemma arr_dflt : 0 <= csize c (cdflt c) -> 0 <= nr_stream_size c false (repeat (cdflt c) n) <= Z.of_nat n * csize c (cdflt c).
  Proof.
    intros H. unfold nr_stream_size. destruct (repeat (cdflt c) n) eqn:E; [lia|]. rewrite <- E, sum_repeat.
    assert (P : 0 <= Z.of_nat n * csize c (cdflt c)) by (apply Z.mul_nonneg_nonneg; [lia|exact H]).
    unfold u64, two64. split; [apply Z.mod_pos_bound; lia|]. apply Z.mod_le; [exact P|lia].
  Qed.
  Lemma elem_array : (tup = true -> (ap | calign c)) -> (tup = false -> (ap | 4)) -> elem (c_array tup n c) arr_ok (encs enc) ap B.
  Proof.
    intros Ht Hf. split.
    - exact good_array.
    - intros l p (Hl & _) H0 Hp H. cbn [c_array csize]. symmetry.
      apply (nr_size_exact c ok enc ap B He false l p); auto. discriminate.
    - destruct (e_roomy He) as [R1 R2]. cbn [c_array csize cdflt]. pose proof (arr_dflt R1) as D. split; [exact (proj1 D)|].
      intros l p (Hl & Hn) H0 Hp H.
      pose proof (encs_room c ok enc ap B Hg (csize c (cdflt c)) R1 R2 l p Hl H0 Hp H) as R. unfold zlen in R at 1. rewrite Hn in R. exact (Z.le_trans _ _ _ (proj2 D) R).
    - cbn [c_array calign]. destruct tup; [exact (e_grain He)|unfold grain; lia].
    - cbn [c_array calign]. destruct tup.
      + exact (e_ap He).
      + exact (Hf eq_refl).
    - cbn [c_array calign]. pose proof (e_B He). destruct tup; tauto.
  Qed.
  (** The whole takes a multiple of what every element takes a multiple of. *)
  Lemma encs_whole g l : 0 < g -> (forall x p, ok x -> 0 <= p -> p mod ap = 0 -> zlen (enc p x) mod g = 0) ->
    forall p, Forall ok l -> 0 <= p -> p mod ap = 0 -> zlen (encs enc p l) mod g = 0.
  Proof.
    intros G W. induction l as [|x t IH]; intros p Hl H0 Hp; cbn [encs]; [apply Z.mod_0_l; lia|].
    inversion Hl as [|x' t' Hx Ht]; subst. rewrite zlen_app. pose proof (zlen_nonneg (enc p x)).
    apply mod_sum_0; [exact G|exact (W x p Hx H0 Hp)|]. apply IH; auto; [lia|now apply (g_pos Hg)].
  Qed.
End Array.

(** ** Pairs *)
Section Pair.
  Variable dbg : bool.
  Context {X Y : Type}.
  Variables (a : codec X) (oka : X -> Prop) (ea : Z -> X -> list Z) (apa : Z).
  Variables (b : codec Y) (okb : Y -> Prop) (eb : Z -> Y -> list Z) (apb B : Z).
  Hypothesis Ha : elem a oka ea apa B.
  Hypothesis Hb : elem b okb eb apb B.
  Definition pair_ok (p : X * Y) : Prop := oka (fst p) /\ okb (snd p).
  Definition p1 (p : Z) (x : X) : Z := p + zlen (ea p x).
  Definition p2 (p : Z) (x : X) : Z := p1 p x + zlen (pad (p1 p x) (calign b)).
  Definition p3 (p : Z) (x : X) (y : Y) : Z := p2 p x + zlen (eb (p2 p x) y).
  Definition pair_enc (p : Z) (v : X * Y) : list Z :=
    ea p (fst v) ++ pad (p1 p (fst v)) (calign b) ++ eb (p2 p (fst v)) (snd v) ++ pad (p3 p (fst v) (snd v)) (calign a).
  Variable ap : Z.
  Hypothesis H0 : 0 < ap.
  Hypothesis Hap : (apa | ap).
  Hypothesis Hbp : (apb | calign b).
  Hypothesis Hpos : forall x p, pair_ok x -> 0 <= p -> p mod ap = 0 -> (p + zlen (pair_enc p x)) mod ap = 0.
  Lemma p2_mod p x : p2 p x mod calign b = 0.
  Proof. apply pad_end. apply grain_pos, (e_grain Hb). Qed.
  Lemma p2_apb p x : p2 p x mod apb = 0.
  Proof. apply (mod_mod_div _ _ (calign b)); [exact (g_ap (e_good Hb))|exact Hbp|apply p2_mod]. Qed.
  Lemma good_pair : good (c_pair a b) pair_ok pair_enc ap B.
  Proof.
    split; [| |exact Hpos|exact H0].
    - intros [x y] s [Hx Hy] Hs HBs Hp Hf. cbn [c_pair cwrite fst snd] in *. unfold iobind. unfold pair_enc in *. cbn [fst snd] in *.
      assert (Hpa : opos s mod apa = 0) by (apply (mod_mod_div _ _ ap); auto; exact (g_ap (e_good Ha))).
      rewrite (g_write (e_good Ha)); [|auto..|exact (fits_l _ _ _ Hf)]. cbn [bind].
      pose proof (after_inside _ _ _ Hs Hf) as Hs1. apply (fits_r _ _ _ Hs) in Hf as Hf1.
      assert (P1 : opos (o_after s (ea (opos s) x)) = p1 (opos s) x) by reflexivity.
      set (p := opos s) in *. set (s1 := o_after s (ea p x)) in *. rewrite <- P1 in Hf1.
      rewrite o_align_fits; [|exact Hs1|exact (e_grain Hb)| |exact (fits_l _ _ _ Hf1)].
      2: { apply (mod_mod_div _ _ B); [apply grain_pos, (e_grain Hb)|apply (e_B Hb)|exact HBs]. }
      cbn [bind]. pose proof (after_inside _ _ _ Hs1 Hf1) as Hs2. apply (fits_r _ _ _ Hs1) in Hf1 as Hf2.
      assert (P2 : opos (o_after s1 (pad (opos s1) (calign b))) = p2 p x) by reflexivity.
      set (s2 := o_after s1 (pad (opos s1) (calign b))) in *. rewrite <- P2 in Hf2.
      rewrite (g_write (e_good Hb)); [|exact Hy|exact Hs2|exact HBs|rewrite P2; apply p2_apb|exact (fits_l _ _ _ Hf2)]. cbn [bind].
      pose proof (after_inside _ _ _ Hs2 Hf2) as Hs3. apply (fits_r _ _ _ Hs2) in Hf2 as Hf3.
      assert (P3 : opos (o_after s2 (eb (opos s2) y)) = p3 p x y) by reflexivity.
      set (s3 := o_after s2 (eb (opos s2) y)) in *. rewrite <- P3 in Hf3.
      rewrite o_align_fits; [|exact Hs3|exact (e_grain Ha)| |exact Hf3].
      2: { apply (mod_mod_div _ _ B); [apply grain_pos, (e_grain Ha)|apply (e_B Ha)|exact HBs]. }
      rewrite <- P3, <- P2, <- P1 in *. unfold s3 at 1. rewrite o_after_app; [|exact Hs2|exact Hf2].
      unfold s2 at 1. rewrite o_after_app; [|exact Hs1|exact Hf1].
      unfold s1 at 1. rewrite o_after_app; [reflexivity|exact Hs|exact Hf].
    - intros [x y] old pre l st e [Hx Hy] Hp H. cbn [c_pair cread fst snd] in *. unfold iobind. unfold pair_enc in *. cbn [fst snd] in *.
      assert (Hpa : zlen pre mod apa = 0) by (apply (mod_mod_div _ _ ap); auto; exact (g_ap (e_good Ha))).
      rewrite <- !app_assoc in H |- *.
      rewrite (g_read (e_good Ha)) by auto. cbn [bind]. rewrite app_assoc in H.
      assert (P1 : p1 (zlen pre) x = zlen (pre ++ ea (zlen pre) x)) by (rewrite zlen_app; reflexivity).
      set (pre1 := pre ++ ea (zlen pre) x) in *.
      assert (P2 : p2 (zlen pre) x = zlen (pre1 ++ pad (zlen pre1) (calign b))) by (unfold p2; rewrite P1, zlen_app; reflexivity).
      pose proof (p2_apb (zlen pre) x) as M2.
      unfold p3 in H |- *. rewrite P1 in H |- *. rewrite P2 in H, M2 |- *.
      rewrite rdr_align; [|exact H|exact (e_grain Hb)]. cbn [bind]. rewrite app_assoc in H.
      set (pre2 := pre1 ++ pad (zlen pre1) (calign b)) in *.
      rewrite (g_read (e_good Hb)); [|exact Hy|exact M2|exact H]. cbn [bind]. rewrite app_assoc in H.
      rewrite <- zlen_app in H |- *. set (pre3 := pre2 ++ eb (zlen pre2) y) in *.
      rewrite rdr_align; [|exact H|exact (e_grain Ha)]. cbn [bind ret]. unfold pre3, pre2, pre1. rewrite <- !app_assoc. reflexivity.
  Qed.
End Pair.

(** Pairs of which the half with the greater alignment has sizes that are
    multiples of it. *)
Lemma divide4 g : grain g -> g <= 4 -> (g | 4).
Proof. intros [-> | [-> | [-> | ->]]] H; [exists 4|exists 2|exists 1|]; lia. Qed.
Lemma grain_div g g' : grain g -> grain g' -> g <= g' -> (g | g').
Proof.
  intros [-> | [-> | [-> | ->]]] [-> | [-> | [-> | ->]]] H; try lia;
    first [exists 1; reflexivity | exists 2; reflexivity | exists 4; reflexivity | exists 8; reflexivity].
Qed.
Definition up4 (n : Z) : Z := n + (- n) mod 4.
Lemma align_up4 n : 0 <= n < 2 ^ 63 -> align_up n 4 = up4 n.
Proof. intros H. apply align_up_pad; [exact H|unfold grain; auto]. Qed.
Definition up (g n : Z) : Z := n + (- n) mod g.
Lemma up_le g n : grain g -> n <= up g n < n + 8.
Proof. intros H. unfold up. pose proof (Z.mod_pos_bound (- n) g (grain_pos _ H)). unfold grain in H. lia. Qed.
Lemma up_mod g n : grain g -> up g n mod g = 0.
Proof. intros H. unfold up. rewrite Zplus_mod_idemp_r. replace (n + - n) with 0 by lia. apply Z.mod_0_l. pose proof (grain_pos _ H). lia. Qed.
Lemma up_id g n : grain g -> n mod g = 0 -> up g n = n.
Proof. intros H E. unfold up. pose proof (grain_pos _ H). rewrite Z.mod_opp_l_z by (auto; lia). lia. Qed.
Lemma up_mono g a b : grain g -> a <= b -> up g a <= up g b.
Proof.
  intros Hg H. pose proof (grain_pos _ Hg) as Hp. unfold up. pose proof (Z.mod_pos_bound (- a) g Hp). pose proof (Z.mod_pos_bound (- b) g Hp).
  pose proof (Z.div_mod (- a) g ltac:(lia)). pose proof (Z.div_mod (- b) g ltac:(lia)).
  pose proof (Z.div_le_mono (- b) (- a) g ltac:(lia) ltac:(lia)). nia.
Qed.
Lemma align_up_up g n : grain g -> 0 <= n < 2 ^ 63 -> align_up n g = up g n.
Proof. intros Hg H. now apply align_up_pad. Qed.
Lemma mod_sum a b g : 0 < g -> a mod g = 0 -> b mod g = 0 -> (a + b) mod g = 0.
Proof. intros H A B. rewrite Z.add_mod, A, B by lia. apply Z.mod_0_l. lia. Qed.
Lemma align_up_nonneg n g : 0 < g -> 0 <= align_up n g.
Proof.
  intros H. unfold align_up. cbv zeta. unfold u64, two64. set (m := (n + g - 1) mod _).
  assert (0 <= m) by (apply Z.mod_pos_bound; lia). pose proof (Z.mod_le m g ltac:(lia) ltac:(lia)). lia.
Qed.
Section PairWords.
  Context {X Y : Type}.
  Variables (a : codec X) (oka : X -> Prop) (ea : Z -> X -> list Z) (apa : Z).
  Variables (b : codec Y) (okb : Y -> Prop) (eb : Z -> Y -> list Z) (apb B : Z).
  Hypothesis Ha : elem a oka ea apa B.
  Hypothesis Hb : elem b okb eb apb B.
  Hypothesis Ca : calign a <= 4.
  Hypothesis Cb : calign b <= 4.
  Hypothesis Da : (apa | calign a).
  Hypothesis Db : (apb | calign b).
  Hypothesis Wa : calign b < calign a -> forall x p, oka x -> 0 <= p -> p mod apa = 0 -> zlen (ea p x) mod calign a = 0.
  Hypothesis Wb : calign a < calign b -> forall y p, okb y -> 0 <= p -> p mod apb = 0 -> zlen (eb p y) mod calign b = 0.
  Local Notation E := (pair_enc a ea b eb).
  Local Notation P2 := (p2 ea b).
  Local Notation m := (Z.max (calign a) (calign b)).
  Let Ga : grain (calign a) := e_grain Ha.
  Let Gb : grain (calign b) := e_grain Hb.
  Lemma pw_gm : grain m.
  Proof. destruct (Z.max_spec (calign a) (calign b)) as [[_ ->] | [_ ->]]; assumption. Qed.
  Lemma pw_a p : p mod m = 0 -> p mod calign a = 0.
  Proof. apply mod_mod_div; [now apply grain_pos|apply grain_div; auto; [apply pw_gm|lia]]. Qed.
  Lemma pw_b p : p mod m = 0 -> p mod calign b = 0.
  Proof. apply mod_mod_div; [now apply grain_pos|apply grain_div; auto; [apply pw_gm|lia]]. Qed.
  Lemma pw_p1 p : p mod m = 0 -> p mod apa = 0.
  Proof. intros Hp. apply (mod_mod_div _ _ (calign a)); [exact (g_ap (e_good Ha))|exact Da|now apply pw_a]. Qed.
  Lemma pw_p2 p x : 0 <= p -> 0 <= P2 p x /\ P2 p x mod apb = 0.
  Proof.
    intros Hp. split; [|exact (p2_apb ea b okb eb apb B Hb Db p x)].
    unfold p2, p1. pose proof (zlen_nonneg (ea p x)). pose proof (zlen_nonneg (pad (p + zlen (ea p x)) (calign b))). lia.
  Qed.
  Lemma pw_p2a p x : oka x -> 0 <= p -> p mod m = 0 -> P2 p x mod calign a = 0.
  Proof.
    intros Hx H0 Hp. destruct (Z.leb_spec (calign a) (calign b)) as [L | L].
    - apply (mod_mod_div _ _ (calign b)); [now apply grain_pos|now apply grain_div|]. exact (p2_mod _ b _ _ _ _ Hb p x).
    - pose proof (Wa L x p Hx H0 (pw_p1 p Hp)) as W.
      assert (Q : p1 ea p x mod calign a = 0) by (unfold p1; apply mod_sum; [now apply grain_pos|now apply pw_a|exact W]).
      unfold p2. rewrite pad_0; [|now apply grain_pos|].
      + change (zlen (@nil Z)) with 0. now rewrite Z.add_0_r.
      + apply (mod_mod_div _ _ (calign a)); [now apply grain_pos|apply grain_div; auto; lia|exact Q].
  Qed.
  Lemma pw_len x y p : oka x -> 0 <= p -> p mod m = 0 ->
    zlen (E p (x, y)) = up (calign b) (zlen (ea p x)) + up (calign a) (zlen (eb (P2 p x) y)).
  Proof.
    intros Hx H0 Hp. unfold pair_enc. cbn [fst snd]. rewrite !zlen_app. rewrite !pad_len by (now apply grain_pos).
    unfold p3. rewrite neg_shift; [|now apply grain_pos|now apply pw_p2a].
    unfold p1. rewrite neg_shift; [|now apply grain_pos|now apply pw_b]. unfold up. lia.
  Qed.
  Lemma pw_pos v p : pair_ok oka okb v -> 0 <= p -> p mod m = 0 -> (p + zlen (E p v)) mod m = 0.
  Proof.
    destruct v as [x y]. intros [Hx Hy] H0 Hp. cbn [fst snd] in Hx, Hy. rewrite pw_len by assumption.
    destruct (pw_p2 p x H0) as [Q1 Q2]. apply mod_sum; [apply grain_pos, pw_gm|exact Hp|].
    destruct (Z.lt_trichotomy (calign a) (calign b)) as [L | [L | L]].
    - rewrite Z.max_r by lia. apply mod_sum; [now apply grain_pos|now apply up_mod|].
      pose proof (Wb L y _ Hy Q1 Q2) as W. rewrite up_id; [exact W|exact Ga|].
      apply (mod_mod_div _ _ (calign b)); [now apply grain_pos|apply grain_div; auto; lia|exact W].
    - rewrite L, Z.max_id. apply mod_sum; [now apply grain_pos|now apply up_mod|]. rewrite <- L. now apply up_mod.
    - rewrite Z.max_l by lia. apply mod_sum; [now apply grain_pos| |now apply up_mod].
      pose proof (Wa L x p Hx H0 (pw_p1 p Hp)) as W. rewrite up_id; [exact W|exact Gb|].
      apply (mod_mod_div _ _ (calign a)); [now apply grain_pos|apply grain_div; auto; lia|exact W].
  Qed.
  Lemma small_parts u v x y n : x <= u < x + 8 -> y <= v < y + 8 -> 0 <= x -> 0 <= y -> u + v < n -> n <= 2 ^ 63 ->
    x < n /\ y < n /\ 0 <= x < 2 ^ 63 /\ 0 <= y < 2 ^ 63.
  Proof. intros. repeat split; lia. Qed.
  Lemma pw_exact : exact (c_pair a b) (pair_ok oka okb) E m.
  Proof.
    intros [x y] p [Hx Hy] H0 Hp H. cbn [fst snd] in Hx, Hy. rewrite pw_len in H |- * by assumption.
    destruct (pw_p2 p x H0) as [Q1 Q2]. pose proof (pw_p1 p Hp) as Q3.
    pose proof (zlen_nonneg (ea p x)) as N1. pose proof (zlen_nonneg (eb (P2 p x) y)) as N2.
    pose proof (up_le (calign b) (zlen (ea p x)) Gb) as U1. pose proof (up_le (calign a) (zlen (eb (P2 p x) y)) Ga) as U2.
    destruct (small_parts _ _ _ _ _ U1 U2 N1 N2 H ltac:(vm_compute; discriminate)) as (S1 & S2 & S3 & S4).
    cbn [c_pair csize fst snd].
    rewrite <- (e_exact Ha x p Hx H0 Q3 S1). rewrite <- (e_exact Hb y _ Hy Q1 Q2 S2).
    rewrite (align_up_up _ _ Gb S3), (align_up_up _ _ Ga S4). reflexivity.
  Qed.
  Lemma pw_roomy : roomy (c_pair a b) (pair_ok oka okb) E m.
  Proof.
    destruct (e_roomy Ha) as [R1 R2]. destruct (e_roomy Hb) as [R3 R4]. split.
    - cbn [c_pair csize cdflt fst snd].
      pose proof (align_up_nonneg (csize a (cdflt a)) (calign b) (grain_pos _ Gb)). pose proof (align_up_nonneg (csize b (cdflt b)) (calign a) (grain_pos _ Ga)). lia.
    - intros [x y] p [Hx Hy] H0 Hp H. cbn [fst snd] in Hx, Hy. rewrite pw_len in H |- * by assumption.
      destruct (pw_p2 p x H0) as [Q1 Q2]. pose proof (pw_p1 p Hp) as Q3.
      pose proof (zlen_nonneg (ea p x)) as N1. pose proof (zlen_nonneg (eb (P2 p x) y)) as N2.
      pose proof (up_le (calign b) (zlen (ea p x)) Gb) as U1. pose proof (up_le (calign a) (zlen (eb (P2 p x) y)) Ga) as U2.
      destruct (small_parts _ _ _ _ _ U1 U2 N1 N2 H ltac:(vm_compute; discriminate)) as (S1 & S2 & S3 & S4).
      specialize (R2 x p Hx H0 Q3 S1). specialize (R4 y _ Hy Q1 Q2 S2).
      cbn [c_pair csize cdflt fst snd].
      rewrite (align_up_up (calign b) _ Gb (conj R1 (Z.le_lt_trans _ _ _ R2 S1))).
      rewrite (align_up_up (calign a) _ Ga (conj R3 (Z.le_lt_trans _ _ _ R4 S2))).
      apply Z.add_le_mono; now apply up_mono.
  Qed.
  Lemma elem_pair_words : elem (c_pair a b) (pair_ok oka okb) E m B.
  Proof.
    split.
    - apply (good_pair a oka ea apa b okb eb apb B Ha Hb m (grain_pos _ pw_gm)); [|exact Db|exact pw_pos].
      apply (Z.divide_trans _ (calign a)); [exact Da|]. apply grain_div; auto; [apply pw_gm|lia].
    - exact pw_exact.
    - exact pw_roomy.
    - unfold grain. cbn [c_pair calign]. auto.
    - cbn [c_pair calign]. apply divide4; [apply pw_gm|]. lia.
    - cbn [c_pair calign]. pose proof (e_B Ha). tauto.
  Qed.
End PairWords.
