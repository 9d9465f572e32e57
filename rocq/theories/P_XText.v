(** * Properties C208-C211: what exceptions say about themselves. *)
From Verif Require Import Base UtilModel StreamModel StrOpsModel StrOpsSpec StrNumProofs ExcModel ExcSpec P_Exc XTextModel XTextSpec XTextProofs.
From Coq Require Import ZArith List Lia String.
Import ListNotations.
Local Open Scope string_scope.
Local Open Scope list_scope.
Local Open Scope Z_scope.

Lemma lit_codes s : Forall (fun x => x <> 37) (codes s) -> literal (codes s). Proof. exact (fun H => H). Qed.
Ltac lit := repeat (apply Forall_cons || apply Forall_nil); discriminate.
Lemma render2 t u : render (codes "%s: %s") [PText t; PText u] = Ok (t ++ codes ": " ++ u).
Proof.
  change (codes "%s: %s") with (37 :: 115 :: codes ": " ++ 37 :: 115 :: []). rewrite render_s.
  rewrite render_lit by lit. rewrite render_s. cbn [render bind]. now rewrite app_nil_r.
Qed.
Lemma render3 t u v : render (codes "%s %s: %s") [PText t; PText u; PText v] = Ok (t ++ codes " " ++ u ++ codes ": " ++ v).
Proof.
  change (codes "%s %s: %s") with (37 :: 115 :: codes " " ++ 37 :: 115 :: codes ": " ++ 37 :: 115 :: []). rewrite render_s.
  rewrite render_lit by lit. rewrite render_s. rewrite render_lit by lit. rewrite render_s. cbn [render bind]. now rewrite app_nil_r.
Qed.
Lemma class_same c : class_name c = codes (class_word c).
Proof. destruct c; reflexivity. Qed.
Lemma msg_copy t : msg_arg true t = Copy t.
Proof. destruct t; reflexivity. Qed.

Section C.
  Variable strerror : Z -> list Z.
  Variable want : bool.
  Variable dem : list Z -> option (list Z).
  Notation info := (info want dem).

(** ** C208 *)
(** An error says what it was constructed with, whatever becomes of the argument; its description begins with its class. *)
Theorem C208_message c a t m : m a = Some t -> exists x, new_msg true c (Some a) m = Ok x /\ x_format x = 2 /\ forall m',
  what m' x = Ok t /\ info m' x None = Ok (codes (class_word c) ++ codes ": " ++ t).
Proof.
  intros H. unfold new_msg, c_arg. rewrite H. cbn [bind]. rewrite msg_copy. eexists. split; [reflexivity|]. split; [reflexivity|]. intros m'.
  split; [reflexivity|]. unfold XTextModel.info. cbn [x_kind s_text bind]. rewrite render2, class_same. reflexivity.
Qed.
(** With the caller's format. *)
Theorem C208_caller_format c a t m p q r : m a = Some t -> literal p -> literal q -> literal r ->
  exists x, new_msg true c (Some a) m = Ok x /\ forall m',
  info m' x (Some (p ++ codes "%s" ++ q ++ codes "%s" ++ r)) = Ok (p ++ codes (class_word c) ++ q ++ t ++ r).
Proof.
  intros H Lp Lq Lr. unfold new_msg, c_arg. rewrite H. cbn [bind]. rewrite msg_copy. eexists. split; [reflexivity|]. intros m'.
  unfold XTextModel.info. cbn [x_kind s_text bind]. change (codes "%s") with [37; 115]. cbn [app].
  rewrite render_lit by assumption. rewrite render_s. rewrite render_lit by assumption. rewrite render_s, render_end by assumption.
  cbn [bind]. now rewrite class_same.
Qed.
(** Two per cent signs in it stand for one. *)
Theorem C208_per_cent c a t m p q r u : m a = Some t -> literal p -> literal q -> literal r -> literal u ->
  exists x, new_msg true c (Some a) m = Ok x /\ forall m',
  info m' x (Some (p ++ codes "%%" ++ q ++ codes "%s" ++ r ++ codes "%s" ++ u)) = Ok (p ++ codes "%" ++ q ++ codes (class_word c) ++ r ++ t ++ u).
Proof.
  intros H Lp Lq Lr Lu. unfold new_msg, c_arg. rewrite H. cbn [bind]. rewrite msg_copy. eexists. split; [reflexivity|]. intros m'.
  unfold XTextModel.info. cbn [x_kind s_text bind]. change (codes "%s") with [37; 115]. change (codes "%%") with [37; 37]. change (codes "%") with [37]. cbn [app].
  rewrite render_lit by assumption.
  match goal with |- context [render (37 :: 37 :: ?f) ?b] => change (render (37 :: 37 :: f) b) with (r0 <- render f b ;; Ok (37 :: r0)) end.
  rewrite render_lit by assumption. rewrite render_s. rewrite render_lit by assumption. rewrite render_s, render_end by assumption.
  cbn [bind]. now rewrite class_same.
Qed.
(** Copying an error may throw: its text, if it has one, is copied. *)
Theorem C208_copy_throws c a t m : m a = Some t -> t <> [] ->
  exists x, new_msg true c (Some a) m = Ok x /\ copy_exc false x = Exn bad_alloc.
Proof.
  intros H N. unfold new_msg, c_arg. rewrite H. cbn [bind]. rewrite msg_copy. eexists. split; [reflexivity|].
  unfold copy_exc. cbn [x_kind str_copy]. destruct t; [congruence|reflexivity].
Qed.
(** Constructing an error never throws: without memory, or without an argument, its text is empty. *)
Theorem C208_no_memory c arg m : (forall a, arg = Some a -> m a <> None) -> exists x, new_msg false c arg m = Ok x /\ forall m', what m' x = Ok [] /\
  info m' x None = Ok (codes (class_word c) ++ codes ": ").
Proof.
  intros H. unfold new_msg. assert (T : exists t, c_arg m arg = Ok t).
  { unfold c_arg. destruct arg as [a|]; [|now exists []]. destruct (m a) as [t|] eqn:E; [now exists t|]. now specialize (H a eq_refl). }
  destruct T as [t ->]. cbn [bind]. assert (M : msg_arg false t = Copy []) by (destruct t; reflexivity). rewrite M.
  eexists. split; [reflexivity|]. intros m'. split; [reflexivity|]. unfold XTextModel.info. cbn [x_kind s_text bind].
  rewrite render2, class_same, app_nil_r. reflexivity.
Qed.
Theorem C208_no_argument ok c m : exists x, new_msg ok c None m = Ok x /\ forall m', what m' x = Ok [].
Proof. eexists. split; [reflexivity|]. reflexivity. Qed.
(** A copy of an exception says the same. *)
Theorem C208_copy x y ok m fmt : copy_exc ok x = Ok y -> what m y = what m x /\ info m y fmt = info m x fmt /\ x_format y = x_format x.
Proof.
  unfold copy_exc. intros E.
  assert (S : forall s s', str_copy ok s = Ok s' -> s' = s).
  { intros s s' Q. unfold str_copy in Q. destruct s as [[|z t]|a]; try destruct ok; congruence. }
  assert (K : y = x).
  { destruct x as [f k]. cbn [x_kind x_format] in E. destruct k; cbn [bind] in E; try (injection E as <-; reflexivity).
    all: destruct (str_copy ok arg) as [a'| | |] eqn:Ea; cbn [bind] in E; try discriminate E; apply S in Ea; subst a'.
    1: injection E as <-; reflexivity.
    all: destruct (str_copy ok op) as [o'| | |] eqn:Eo; cbn [bind] in E; try discriminate E; apply S in Eo; subst o'; injection E as <-; reflexivity. }
  subst. auto.
Qed.
Theorem C208_copy_exists x : exists y, copy_exc true x = Ok y.
Proof.
  assert (S : forall s, str_copy true s = Ok s) by (intros [[|z t]|a]; reflexivity).
  unfold copy_exc. destruct (x_kind x); cbn [bind]; rewrite ?S; cbn [bind]; eauto.
  all: rewrite S; cbn [bind]; eauto.
Qed.
(** A system error names the operation - as long as that text exists - and the error number's message. *)
Theorem C208_system eno a op m : m a = Some op -> exists x, new_sys strerror true eno (Some a) m = Ok x /\ x_format x = 3 /\
  (exists t o, x_kind x = KSys t o eno) /\ forall m', m' a = Some op -> info m' x None = Ok (op ++ codes ": " ++ strerror eno).
Proof.
  intros H. unfold new_sys, new_sys_ec, c_arg. rewrite H. cbn [bind x_kind str_link]. rewrite msg_copy.
  eexists. split; [reflexivity|]. split; [reflexivity|]. split; [eexists _, _; reflexivity|]. intros m' H'. unfold XTextModel.info. cbn [x_kind s_text bind].
  rewrite H'. cbn [bind]. apply render2.
Qed.
(** A file error also names the file, of which it keeps the first 4095 bytes. *)
Theorem C208_file eno a b op file m : m a = Some op -> m b = Some file -> c_text file ->
  exists x, new_file strerror true eno (Some a) (Some b) m = Ok x /\ x_format x = 13 /\
  (exists t o f, x_kind x = KFile t o eno f /\ List.length f = 4096%nat /\ file_text f = firstn 4095 file) /\
  forall m', m' a = Some op -> info m' x None = Ok (op ++ codes " " ++ firstn 4095 file ++ codes ": " ++ strerror eno).
Proof.
  intros Ha Hb C. unfold new_file, new_sys, new_sys_ec, c_arg. rewrite Ha. cbn [bind x_kind str_link]. rewrite Hb. cbn [bind]. rewrite msg_copy.
  assert (F : file_text (file_array file) = firstn 4095 file).
  { unfold file_text, file_array. change (Z.to_nat (path_max - 1)) with 4095%nat. change (Z.to_nat path_max) with (S 4095). now apply strncpy_text. }
  eexists. split; [reflexivity|]. split; [reflexivity|]. split.
  - eexists _, _, _. split; [reflexivity|]. split; [|exact F]. unfold file_array, zero_at, strncpy. change (Z.to_nat (path_max - 1)) with 4095%nat.
    change (Z.to_nat path_max) with 4096%nat. rewrite app_length. cbn [List.length]. rewrite skipn_length, firstn_length, !app_length, repeat_length, firstn_length. lia.
  - intros m' H'. unfold XTextModel.info. cbn [x_kind s_text bind]. rewrite H'. cbn [bind]. rewrite F. apply render3.
Qed.

(** ** C209 *)
(** A system error, and every copy of it, reads the argument's text again when it is asked for its description. *)
Theorem C209_operation_refuted eno a op m : m a = Some op -> exists x, new_sys strerror true eno (Some a) m = Ok x /\
  forall y m', copy_exc true x = Ok y -> m' a = None -> info m' x None = UB /\ info m' y None = UB.
Proof.
  intros H. unfold new_sys, new_sys_ec, c_arg. rewrite H. cbn [bind x_kind str_link]. eexists. split; [reflexivity|].
  intros y m' E N. assert (U : info m' {| x_format := 3; x_kind := KSys (msg_arg true (strerror eno)) (Link a) eno |} None = UB).
  { unfold XTextModel.info. cbn [x_kind s_text]. rewrite N. reflexivity. }
  split; [exact U|]. rewrite <- U. now apply (C208_copy _ y true).
Qed.
Theorem C209_overwritten_refuted eno a op op' m : m a = Some op -> exists x, new_sys strerror true eno (Some a) m = Ok x /\
  forall m', m' a = Some op' -> info m' x None = Ok (op' ++ codes ": " ++ strerror eno).
Proof.
  intros H. unfold new_sys, new_sys_ec, c_arg. rewrite H. cbn [bind x_kind str_link]. rewrite msg_copy. eexists. split; [reflexivity|].
  intros m' N. unfold XTextModel.info. cbn [x_kind s_text]. rewrite N. cbn [bind]. apply render2.
Qed.
(** what () does not tell system errors apart. *)
Theorem C209_what_refuted e1 e2 a m x y : new_sys strerror true e1 (Some a) m = Ok x -> new_sys strerror true e2 (Some a) m = Ok y ->
  forall m', what m' x = what m' y.
Proof.
  unfold new_sys, new_sys_ec, c_arg. destruct (m a); cbn [bind x_kind]; intros [= <-] [= <-] m'. reflexivity.
Qed.

(** ** C210, C211 *)
Lemma alloc_text n m : info m (new_alloc n) None = Ok (codes "failed to allocate " ++ dec_text (int32 n) ++ codes " bytes").
Proof.
  unfold XTextModel.info, new_alloc. cbn [x_kind].
  change (codes "failed to allocate %d bytes") with (codes "failed to allocate " ++ 37 :: 100 :: codes " bytes").
  rewrite render_lit by lit. rewrite render_d. rewrite render_end by lit. reflexivity.
Qed.
(** A failed allocation of less than 2 GB. *)
Theorem C210_alloc n m : 0 <= n < 2 ^ 31 -> exists d, numeral 10 d n /\
  info m (new_alloc n) None = Ok (codes "failed to allocate " ++ d ++ codes " bytes").
Proof. intros H. exists (dec_text n). split; [apply dec_numeral; lia|]. rewrite alloc_text, int32_small by lia. reflexivity. Qed.
Lemma bounds_text eno a b op ty d off need have m x : m a = Some op -> m b = Some ty -> c_text ty ->
  new_bounds strerror true eno (Some a) (Some b) off need have m = Ok x ->
  demangle_type_name want dem (firstn 255 ty) 256 = Ok d ->
  forall m', m' a = Some op -> m' b = Some ty ->
  info m' x None = Ok (d ++ codes " stream " ++ op ++ codes ": @0x" ++ hex_digits 8 (low32 off) [] ++ codes ": need " ++ dec_text (low32 need) ++
    codes " bytes, have " ++ dec_text (low32 have)).
Proof.
  intros Ha Hb C E D m' Ha' Hb'. unfold new_bounds, new_sys, new_sys_ec, c_arg in E. rewrite Ha in E. cbn [bind x_kind str_link] in E. injection E as <-.
  unfold XTextModel.info. cbn [x_kind]. rewrite Hb'. cbn [bind]. unfold type_buf. rewrite (strncpy_text 255) by assumption. rewrite D. cbn [bind s_text].
  rewrite Ha'. cbn [bind].
  change (codes "%s stream %s: @0x%X: need %u bytes, have %u") with
    (37 :: 115 :: codes " stream " ++ 37 :: 115 :: codes ": @0x" ++ 37 :: 88 :: codes ": need " ++ 37 :: 117 :: codes " bytes, have " ++ 37 :: 117 :: []).
  rewrite render_s. rewrite render_lit by lit. rewrite render_s. rewrite render_lit by lit. rewrite render_X. rewrite render_lit by lit.
  rewrite render_u. rewrite render_lit by lit. rewrite render_u. cbn [render bind]. rewrite app_nil_r. reflexivity.
Qed.
(** Running off a stream of less than 4 GB: the type (if it has a name of at most 255 bytes), the operation, the offset in
    hexadecimal, the bytes needed and those available. *)
Theorem C210_bounds eno a b op ty d off need have m : m a = Some op -> m b = Some ty -> c_text ty -> (List.length ty < 256)%nat ->
  0 <= off < 2 ^ 32 -> 0 <= need < 2 ^ 32 -> 0 <= have < 2 ^ 32 -> want = true -> dem ty = Some d -> (List.length d < 256)%nat ->
  exists x o n h, new_bounds strerror true eno (Some a) (Some b) off need have m = Ok x /\ x_format x = 14 /\
  numeral 16 o off /\ upper o /\ numeral 10 n need /\ numeral 10 h have /\
  forall m', m' a = Some op -> m' b = Some ty ->
    info m' x None = Ok (d ++ codes " stream " ++ op ++ codes ": @0x" ++ o ++ codes ": need " ++ n ++ codes " bytes, have " ++ h).
Proof.
  intros Ha Hb C Lt Ho Hn Hh W D Ld. exists (mkx 14 (KBounds (msg_arg true (strerror eno)) (Link a) eno (Some b) off need have)).
  exists (hex_digits 8 off []), (dec_text need), (dec_text have).
  assert (E : new_bounds strerror true eno (Some a) (Some b) off need have m = Ok (mkx 14 (KBounds (msg_arg true (strerror eno)) (Link a) eno (Some b) off need have))).
  { unfold new_bounds, new_sys, new_sys_ec, c_arg. rewrite Ha. reflexivity. }
  split; [exact E|]. split; [reflexivity|]. split; [now apply hex_numeral|]. split; [apply hex_upper; [lia|constructor]|]. split; [apply dec_numeral; lia|]. split; [apply dec_numeral; lia|].
  intros m' Ha' Hb'. rewrite (bounds_text eno a b op ty d off need have m _ Ha Hb C E) by
    (try assumption; rewrite firstn_all2 by lia; unfold demangle_type_name; rewrite W, D;
     replace (256 <? Z.of_nat (List.length d) + 1) with false by lia; rewrite firstn_all2 by lia; reflexivity).
  rewrite !low32_small by assumption. reflexivity.
Qed.

(** More than 2 GB: the number in the text is another one, often negative or zero. *)
Theorem C211_alloc_refuted n m : 2 ^ 31 <= n < 2 ^ 64 -> exists d k, decimal d k /\ k <> n /\ k < 2 ^ 31 /\ k mod 2 ^ 32 = n mod 2 ^ 32 /\
  info m (new_alloc n) None = Ok (codes "failed to allocate " ++ d ++ codes " bytes").
Proof.
  intros H. exists (dec_text (int32 n)), (int32 n). pose proof (int32_range n) as R. split; [apply dec_decimal; lia|]. split; [lia|]. split; [lia|].
  split; [apply int32_mod|]. apply alloc_text.
Qed.
Theorem C211_offset_refuted eno a b op ty d off need have m : m a = Some op -> m b = Some ty -> c_text ty ->
  2 ^ 32 <= off -> demangle_type_name want dem (firstn 255 ty) 256 = Ok d ->
  exists x o k r, new_bounds strerror true eno (Some a) (Some b) off need have m = Ok x /\ numeral 16 o k /\ upper o /\ k < off /\
    info m x None = Ok (d ++ codes " stream " ++ op ++ codes ": @0x" ++ o ++ r).
Proof.
  intros Ha Hb C Ho D. exists (mkx 14 (KBounds (msg_arg true (strerror eno)) (Link a) eno (Some b) off need have)).
  assert (E : new_bounds strerror true eno (Some a) (Some b) off need have m = Ok (mkx 14 (KBounds (msg_arg true (strerror eno)) (Link a) eno (Some b) off need have))).
  { unfold new_bounds, new_sys, new_sys_ec, c_arg. rewrite Ha. reflexivity. }
  assert (L : 0 <= low32 off < 2 ^ 32) by (apply Z.mod_pos_bound; lia).
  eexists (hex_digits 8 (low32 off) []), (low32 off), _. split; [exact E|]. split; [now apply hex_numeral|]. split; [apply hex_upper; [lia|constructor]|]. split; [lia|].
  rewrite (bounds_text eno a b op ty d off need have m _ Ha Hb C E D m Ha Hb). reflexivity.
Qed.
(** A type whose readable name has more than 255 characters: the buffer on the stack is reallocated. *)
Theorem C211_long_type_refuted eno a b op ty d off need have m : m a = Some op -> m b = Some ty -> c_text ty -> (List.length ty < 256)%nat ->
  want = true -> dem ty = Some d -> (256 <= List.length d)%nat ->
  exists x, new_bounds strerror true eno (Some a) (Some b) off need have m = Ok x /\ info m x None = UB.
Proof.
  intros Ha Hb C Lt W D Ld. unfold new_bounds, new_sys, new_sys_ec, c_arg. rewrite Ha. cbn [bind x_kind str_link]. eexists. split; [reflexivity|].
  unfold XTextModel.info. cbn [x_kind]. rewrite Hb. cbn [bind]. unfold type_buf. rewrite (strncpy_text 255) by assumption.
  rewrite firstn_all2 by lia. unfold demangle_type_name. rewrite W, D. replace (256 <? Z.of_nat (List.length d) + 1) with true by lia. reflexivity.
Qed.
End C.
Print Assumptions C208_message.
Print Assumptions C208_caller_format.
Print Assumptions C208_no_memory.
Print Assumptions C208_no_argument.
Print Assumptions C208_copy.
Print Assumptions C208_per_cent.
Print Assumptions C208_copy_throws.
Print Assumptions C208_copy_exists.
Print Assumptions C208_system.
Print Assumptions C208_file.
Print Assumptions C209_operation_refuted.
Print Assumptions C209_overwritten_refuted.
Print Assumptions C209_what_refuted.
Print Assumptions C210_alloc.
Print Assumptions C210_bounds.
Print Assumptions C211_alloc_refuted.
Print Assumptions C211_offset_refuted.
Print Assumptions C211_long_type_refuted.

(** A system error made from an error code has the format number of a plain message; written to a stream, it fails the
    check of the class that reads it. *)
Definition stored (b : bt) (m : store) (x : xobj) : option exc :=
  match x_kind x with
  | KSys a o e => match s_text m a, s_text m o with Ok t, Ok u => Some (mkexc (x_format x) b (XSystem t u e)) | _, _ => None end
  | _ => None
  end.
Definition some_errors (e : Z) : list Z := codes "No such file or directory".
Definition some_store : store := fun a => if Nat.eqb a 1 then Some (codes "open") else if Nat.eqb a 2 then Some (codes "/etc/none") else None.
Theorem C209_format_refuted : exists x y xs ys s, new_sys_ec some_errors true 2 (Some 1%nat) some_store = Ok x /\
  new_sys some_errors true 2 (Some 1%nat) some_store = Ok y /\ x_format x <> x_format y /\
  stored sample_bt some_store x = Some xs /\ stored sample_bt some_store y = Some ys /\
  x_write true xs (os_open (repeat 255 200) 4096) = Ok (s, Val tt) /\
  x_read true (fun _ => true) ys (mkis (odata s) 0 0 0) = UB.
Proof.
  eexists _, _, _, _, _. split; [reflexivity|]. split; [reflexivity|]. split; [discriminate|]. split; [reflexivity|]. split; [reflexivity|].
  split; [vm_compute; reflexivity|]. vm_compute. reflexivity.
Qed.
Print Assumptions C209_format_refuted.

Example C208_example : exists x, new_file some_errors true 2 (Some 1%nat) (Some 2%nat) some_store = Ok x /\
  info true (fun _ => None) some_store x None = Ok (codes "open /etc/none: No such file or directory") /\ c_text (codes "/etc/none").
Proof. eexists. split; [reflexivity|]. split; [vm_compute; reflexivity|]. repeat (apply Forall_cons || apply Forall_nil); discriminate. Qed.
Example C210_example : info true (fun _ => None) some_store (new_alloc 4096) None = Ok (codes "failed to allocate 4096 bytes") /\
  info true (fun _ => None) some_store (new_alloc (2 ^ 32)) None = Ok (codes "failed to allocate 0 bytes") /\
  info true (fun _ => None) some_store (new_alloc (3 * 2 ^ 30)) None = Ok (codes "failed to allocate -1073741824 bytes").
Proof. split; [|split]; vm_compute; reflexivity. Qed.
Example C210_bounds_example : exists x, new_bounds some_errors true 0 (Some 1%nat) (Some 2%nat) 255 8 5 some_store = Ok x /\
  info true (fun t => Some (codes "path")) some_store x None = Ok (codes "path stream open: @0xFF: need 8 bytes, have 5").
Proof. eexists. split; [reflexivity|]. vm_compute. reflexivity. Qed.
