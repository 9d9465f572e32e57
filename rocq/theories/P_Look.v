(** * Properties C246, C247: LOOKUP_TEXT_STREAMABLE. *)
From Verif Require Import Base UtilModel UtilProofs StoreModel StoreProofs MemModel MemSpec MemProofs StringModel StreamModel FileModel OStrModel OStrSpec OStrRun VectorSpec P_Text LookModel.
From Coq Require Import List ZArith ZifyBool ZifyNat Lia.
Import ListNotations.
Local Open Scope Z_scope.

(** The text that is promised for a value: its name, and for a value without
    a name, negative ones among them, the last name of the table. *)
Inductive name_of (names : list (list Z)) : Z -> list Z -> Prop :=
| named v t : 0 <= v -> nth_error names (Z.to_nat v) = Some t -> name_of names v t
| unnamed v l t : v < 0 \/ Z.of_nat (length names) <= v -> names = l ++ [t] -> name_of names v t.

Lemma lookup_name_ok names v : names <> [] -> Z.of_nat (length names) < 2 ^ 63 -> - 2 ^ 63 <= v < 2 ^ 64 ->
  exists t, lookup_name names v = Ok t /\ name_of names v t.
Proof.
  intros Hn Hl Hv. destruct (exists_last Hn) as (l & t & E). unfold lookup_name.
  assert (L : Z.of_nat (length names) = Z.of_nat (length l) + 1) by (rewrite E, app_length; cbn [length]; lia).
  change (2 ^ 63) with 9223372036854775808 in *. change (2 ^ 64) with 18446744073709551616 in *.
  rewrite (u64_small (Z.of_nat (length names) - 1)) by (change (2 ^ 64) with 18446744073709551616; lia).
  destruct (Z_lt_le_dec v 0) as [Vn|Vp].
  - replace (u64 v) with (v + 18446744073709551616).
    2:{ unfold u64. replace v with ((v + two64) + (-1) * two64) at 2 by (unfold two64; lia). rewrite Z.mod_add by (unfold two64; lia).
        change two64 with 18446744073709551616. rewrite Z.mod_small; lia. }
    rewrite Z.min_r by lia. rewrite (proj2 (Z.ltb_lt _ _)) by lia. replace (Z.to_nat (Z.of_nat (length names) - 1)) with (length l) by lia.
    rewrite E, nth_error_app2, Nat.sub_diag by lia. exists t. split; [reflexivity|]. rewrite <- E. apply unnamed with (l := l); [now left|exact E].
  - rewrite u64_small by (change (2 ^ 64) with 18446744073709551616; lia). destruct (Z_lt_le_dec v (Z.of_nat (length names))) as [Vs|Vl].
    + rewrite Z.min_l by lia. rewrite (proj2 (Z.ltb_lt _ _)) by lia. destruct (nth_error names (Z.to_nat v)) as [q|] eqn:N; [|apply nth_error_None in N; lia].
      exists q. split; [reflexivity|]. now apply named.
    + rewrite Z.min_r by lia. rewrite (proj2 (Z.ltb_lt _ _)) by lia. replace (Z.to_nat (Z.of_nat (length names) - 1)) with (length l) by lia.
      rewrite E, nth_error_app2, Nat.sub_diag by lia. exists t. split; [reflexivity|]. rewrite <- E. apply unnamed with (l := l); [now right|exact E].
Qed.
Lemma lookup_ops_ok names vs : names <> [] -> Z.of_nat (length names) < 2 ^ 63 -> Forall (fun v => - 2 ^ 63 <= v < 2 ^ 64) vs ->
  exists ts ops, lookup_ops names vs = Ok ops /\ Forall2 (name_of names) vs ts /\ flat_map bytes_of ops = concat ts /\ total_bytes ops = length (concat ts).
Proof.
  intros Hn Hl H. induction H as [|v vs Hv H IH]; [exists [], []; repeat split; constructor|].
  destruct IH as (ts & ops & E & F & B & T). destruct (lookup_name_ok names v Hn Hl Hv) as (t & Et & Nt).
  exists (t :: ts), (OWrite t :: ops). cbn [lookup_ops]. rewrite Et. cbn [bind]. rewrite E. split; [reflexivity|]. split; [now constructor|].
  assert (Q : flat_map bytes_of (OWrite t :: ops) = concat (t :: ts)) by (cbn [flat_map bytes_of concat]; now rewrite B).
  split; [exact Q|]. unfold total_bytes in *. cbn [map bytes_of]. cbn [list_sum fold_right concat]. rewrite app_length. unfold list_sum in T. now rewrite T.
Qed.

(** ** C246: with any table with at least one name, and for all sequences of
    values, the stream gets the names of the values one after the other. *)
Theorem C246_names : forall e nul h f names vs s,
  has_nul h nul -> oss_default e nul h f = Ok s -> enough_memory e ->
  names <> [] -> Z.of_nat (length names) < 2 ^ 63 -> Forall (fun v => - 2 ^ 63 <= v < 2 ^ 64) vs ->
  (forall t, In t names -> Z.of_nat (length t) * Z.of_nat (length vs) + 2 <= 2 ^ 31) ->
  exists ops s1 rs s2 ts, lookup_ops names vs = Ok ops /\ orun (oss_step e nul) ops s = Ok (s1, rs) /\
    Forall2 (name_of names) vs ts /\ oss_str e nul s1 = Ok (s2, Val (map Some (concat ts))).
Proof.
  intros e nul h f names vs s Hn Eo Hm Ne Hl Hv Hb. destruct (lookup_ops_ok names vs Ne Hl Hv) as (ts & ops & E & F & B & T).
  assert (Lt : Z.of_nat (length (concat ts)) + 2 <= 2 ^ 31).
  { assert (Q : forall m, (forall t, In t names -> Z.of_nat (length t) <= m) -> 0 <= m -> Z.of_nat (length (concat ts)) <= m * Z.of_nat (length vs)).
    { intros m Hmx Hm0. clear - F Hmx Hm0. induction F as [|v t vs ts Nt F IH]; [cbn [concat length]; lia|]. cbn [concat]. rewrite app_length. cbn [length].
      assert (In t names) as Ht by (destruct Nt as [v t _ N|v l t _ N]; [eapply nth_error_In; exact N|rewrite N; apply in_or_app; right; now left]).
      specialize (Hmx t Ht). lia. }
    destruct vs as [|v vs']; [inversion F; subst; cbn [concat length]; lia|].
    assert (exists t, In t names /\ forall t', In t' names -> (length t' <= length t)%nat) as (t & Ht & Mx).
    { clear - Ne. induction names as [|a l IH]; [congruence|]. destruct l as [|b l]; [exists a; split; [now left|]; intros t' [<-|[]]; lia|].
      destruct IH as (t & Ht & M); [discriminate|]. destruct (le_lt_dec (length a) (length t)).
      - exists t. split; [now right|]. intros t' [<-|Q]; [lia|auto].
      - exists a. split; [now left|]. intros t' [<-|Q]; [lia|]. specialize (M t' Q). lia. }
    specialize (Hb t Ht). specialize (Q (Z.of_nat (length t))). etransitivity; [|exact Hb]. apply Z.add_le_mono_r. apply Q; [|lia]. intros t' H'. specialize (Mx t' H'). lia. }
  destruct (C51_ostringstream e nul h f ops s Hn Eo) as (s1 & rs & W & s2 & R & _ & O & Q); [rewrite T; exact Lt|]. destruct (Q Hm) as (-> & _).
  exists ops, s1, rs, s2, ts. rewrite <- B. repeat split; assumption.
Qed.
Print Assumptions C246_names.
(** {"a", "bc"} and the values 0, 1, 7, -1: "abcbcbc". *)
Example C246_example : exists s ops s1 rs s2, oss_default small_env lnul lit (mkf 0 0 [] [] []) = Ok s /\
  lookup_ops [[97]; [98; 99]] [0; 1; 7; -1] = Ok ops /\ orun (oss_step small_env lnul) ops s = Ok (s1, rs) /\
  oss_str small_env lnul s1 = Ok (s2, Val (map Some [97; 98; 99; 98; 99; 98; 99])).
Proof. eexists _, _, _, _, _. split; [reflexivity|]. split; [vm_compute; reflexivity|]. split; [vm_compute; reflexivity|]. vm_compute; reflexivity. Qed.

(** ** C247 (violated): with a table without names every value reads a pointer
    outside of it: there is no last name, and [nNames-1] is the largest offset. *)
Theorem C247_empty_refuted : forall v vs, lookup_ops [] (v :: vs) = UB.
Proof.
  intros v vs. cbn [lookup_ops]. unfold lookup_name. cbn [length]. change (Z.of_nat 0) with 0.
  rewrite (proj2 (Z.ltb_ge _ _)); [reflexivity|]. apply Z.min_glb; [|apply Z.mod_pos_bound; reflexivity]. apply Z.mod_pos_bound. reflexivity.
Qed.
Print Assumptions C247_empty_refuted.
