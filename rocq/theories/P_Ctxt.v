(** * P_Ctxt: values as text (C154-C156). *)
From Verif Require Import Base UtilModel StoreModel MemModel StringModel StreamModel FileModel FmtSpec OStrModel OStrSpec OStrRun IstrSpec CtxtModel CtxtSpec CtxtProofs VectorSpec P_Text.
From Coq Require Import ZArith ZifyBool ZifyNat Lia.
Local Open Scope Z_scope.

(** ** C154: writing a value to a new text stream gives its text: integers in
    decimal, containers and pairs in parentheses with commas between the
    elements, the rows of a matrix in parentheses, to any depth. *)
Theorem C154_text : forall e nul h f t (v : xval t) s,
  has_nul h nul -> oss_default e nul h f = Ok s -> enough_memory e -> has_columns t -> is_value t v ->
  Z.of_nat (total_bytes (text_ops t v)) + 2 <= 2 ^ 31 ->
  exists s1 rs s2 txt, orun (oss_step e nul) (text_ops t v) s = Ok (s1, rs) /\ oss_str e nul s1 = Ok (s2, Val (map Some txt)) /\ text_of t v txt.
Proof.
  intros e nul h f t v s Hn Eo Hm Hc Hv Hb.
  destruct (C51_ostringstream e nul h f (text_ops t v) s Hn Eo Hb) as (s1 & rs & W & s2 & R & _ & O & Q). destruct (Q Hm) as (-> & _).
  eexists s1, rs, s2, _. split; [exact R|]. split; [exact O|]. apply text_ops_ok; assumption.
Qed.
Print Assumptions C154_text.
(** {(-12, {true, false}), (7, {})} *)
Definition sample_ty : xty := XCtr (XPair XInt (XCtr XBool)).
Definition sample : xval sample_ty := [(-12, [true; false]); (7, [])].
Example C154_case : exists s s1 rs s2, oss_default small_env lnul lit (mkf 0 0 [] [] []) = Ok s /\ orun (oss_step small_env lnul) (text_ops sample_ty sample) s = Ok (s1, rs) /\
  oss_str small_env lnul s1 = Ok (s2, Val (map Some [40; 40; 45;49;50; 44; 40; 116;114;117;101; 44; 102;97;108;115;101; 41; 41; 44; 40; 55; 44; 40; 41; 41; 41])) /\
  has_columns sample_ty /\ is_value sample_ty sample.
Proof.
  eexists _, _, _, _. split; [reflexivity|]. split; [vm_compute; reflexivity|]. split; [vm_compute; reflexivity|].
  split; [repeat split|]. change (2 ^ 63) with 9223372036854775808. repeat constructor; cbn [fst snd]; try lia; repeat constructor; change (2 ^ 63) with 9223372036854775808; change (2 ^ 64) with 18446744073709551616; lia.
Qed.
Example C154_matrix : flat_map bytes_of (text_ops (XMat 2 2 XInt) [1; 2; 3; 4]) = [40; 40; 49; 44; 50; 41; 40; 51; 44; 52; 41; 41].
Proof. vm_compute. reflexivity. Qed.
Example C154_bytes : flat_map bytes_of (text_ops XBytes [97; 0; -5]) = [40; 39; 97; 39; 44; 48; 44; 45; 53; 41].
Proof. vm_compute. reflexivity. Qed.

(** ** C155: different values of a type without strings or containers of char
    have different texts, even when other text follows that does not continue a
    number. *)
Theorem C155_different : forall t (a b : xval t) ta tb, no_strings t -> is_value t a -> is_value t b -> text_of t a ta -> text_of t b tb -> a <> b -> ta <> tb.
Proof.
  intros t a b ta tb Ns Va Vb Ta Tb N E. apply N. destruct (text_free t Ns a b ta tb [] []) as (H & _); [split; assumption|split; assumption|exact I|exact I|rewrite E; reflexivity|exact H].
Qed.
Print Assumptions C155_different.
Theorem C155_followed : forall t (a b : xval t) ta tb c r c' r', no_strings t -> is_value t a -> is_value t b -> text_of t a ta -> text_of t b tb ->
  ~ (48 <= c <= 57) -> ~ (48 <= c' <= 57) -> ta ++ c :: r = tb ++ c' :: r' -> a = b /\ c = c' /\ r = r'.
Proof.
  intros t a b ta tb c r c' r' Ns Va Vb Ta Tb Hc Hc' E. destruct (text_free t Ns a b ta tb (c :: r) (c' :: r')) as (H & H2); [split; assumption|split; assumption|cbn [stops]; unfold is_digit; lia|cbn [stops]; unfold is_digit; lia|exact E|].
  injection H2 as -> ->. auto.
Qed.
Print Assumptions C155_followed.
Example C155_case : no_strings sample_ty /\ is_value sample_ty sample /\ is_value sample_ty [(-12, [true]); (7, [])].
Proof. split; [repeat split; discriminate|]. change (2 ^ 63) with 9223372036854775808. split; repeat constructor; cbn [fst snd]; try lia; repeat constructor; change (2 ^ 63) with 9223372036854775808; change (2 ^ 64) with 18446744073709551616; lia. Qed.

(** ** C156: with strings it does not hold: strings are written without quotes,
    so a list of two strings and a list of one can have the same text. *)
Theorem C156_refuted : exists (a b : xval (XCtr XStr)) txt, a <> b /\ flat_map bytes_of (text_ops (XCtr XStr) a) = txt /\ flat_map bytes_of (text_ops (XCtr XStr) b) = txt.
Proof. exists [[97]; [98]], [[97; 44; 98]], [40; 97; 44; 98; 41]. split; [discriminate|]. split; reflexivity. Qed.
Print Assumptions C156_refuted.
