(** * P_Meta: typelists, type traits and numeric_limits (C138-C143). *)
From Coq Require Import List Arith Bool ZArith Lia Permutation.
From Verif Require Import TypelistModel TypelistSpec TypelistProofs TraitModel TraitSpec.
Import ListNotations.

(** ** C138 *)
(** A typelist made of one to nine types holds those types. *)
Theorem C138_seq l : l <> [] -> length l <= 9 -> last l NullType <> NullType -> Seq l = Some (tlist l).
Proof. exact (seq_spec l). Qed.
Print Assumptions C138_seq.
(** Length, TypeAt, TypeAtNonStrict and IndexOf look at the list of types. *)
Theorem C138_lookup l x i d :
  Length (tlist l) = Some (length l) /\ TypeAt (tlist l) i = nth_error l i /\ TypeAtNonStrict (tlist l) i d = nth i l d /\
  exists z, IndexOf (tlist l) x = Some z /\
    ((z = -1 /\ ~ In x l)%Z \/
     (exists k, z = Z.of_nat k /\ nth_error l k = Some x /\ forall j, j < k -> nth_error l j <> Some x)).
Proof. split; [apply length_tlist|]. split; [apply type_at|]. split; [apply type_at_ns|apply index_of_some]. Qed.
Print Assumptions C138_lookup.
(** Append, Erase, EraseAll, Replace, ReplaceAll, Reverse. *)
Theorem C138_edit l l1 l2 x y :
  Append (tlist l) (tlist l2) = Some (tlist (l ++ l2)) /\
  (plain x -> Append (tlist l) x = Some (tlist (l ++ [x]))) /\
  (~ In x l -> Erase (tlist l) x = Some (tlist l) /\ Replace (tlist l) x y = Some (tlist l)) /\
  (~ In x l1 -> Erase (tlist (l1 ++ x :: l2)) x = Some (tlist (l1 ++ l2)) /\
                Replace (tlist (l1 ++ x :: l2)) x y = Some (tlist (l1 ++ y :: l2))) /\
  EraseAll (tlist l) x = Some (tlist (filter (fun z => negb (same z x)) l)) /\
  ReplaceAll (tlist l) x y = Some (tlist (map (fun z => if same z x then y else z) l)) /\
  (Forall plain l -> Reverse (tlist l) = Some (tlist (rev l))).
Proof.
  split; [apply append_list|]. split; [apply append_plain|].
  split; [intros N; split; [now apply erase_none|now apply replace_none]|].
  split; [intros N; split; [now apply erase_first|now apply replace_first]|].
  split; [apply erase_all|]. split; [apply replace_all|apply reverse_plain].
Qed.
Print Assumptions C138_edit.
(** NoDuplicates keeps the first of each type, in order. *)
Theorem C138_no_duplicates l :
  NoDuplicates (tlist l) = Some (tlist (firsts [] l)) /\ NoDup (firsts [] l) /\ (forall x, In x (firsts [] l) <-> In x l).
Proof.
  split; [apply no_duplicates|]. split; [apply nodup_firsts|]. intros x. rewrite in_firsts. cbn [In]. tauto.
Qed.
Print Assumptions C138_no_duplicates.
(** MostDerived is derived from the given class, and nothing in the list is
    derived from it; DerivedToFront rearranges the types so that none comes
    after one it is derived from. *)
Theorem C138_derived super (H : Hierarchy super) l x :
  (exists d, MostDerived super (tlist l) x = Some d /\ super x d = true /\ In d (x :: l) /\
     forall e, In e (x :: l) -> super d e = true -> e = d) /\
  (exists r, DerivedToFront super (tlist l) = Some (tlist r) /\ Permutation r l /\ derived_first super r).
Proof. split; [apply most_derived, H|apply derived_to_front_spec, H]. Qed.
Print Assumptions C138_derived.
(** Non-vacuity: A, B : A, C : B, D : A as 0, 1, 2, 3. *)
Definition ex_super (a b : ty) : bool :=
  match a, b with
  | Other 0, Other 1 | Other 0, Other 2 | Other 0, Other 3 | Other 1, Other 2 => true
  | _, _ => same a b
  end.
Example ex_hierarchy : Hierarchy ex_super.
Proof.
  assert (D : forall a b, ex_super a b = true -> a = b \/ (a = Other 0 /\ (b = Other 1 \/ b = Other 2 \/ b = Other 3)) \/ (a = Other 1 /\ b = Other 2)).
  { intros a b. unfold ex_super. destruct a as [|? ?|[|[|n]]]; try (intros E; apply same_true in E; now left).
    - destruct b as [|? ?|[|[|[|[|m]]]]]; try (intros E; apply same_true in E; now left); intros _; auto 6.
    - destruct b as [|? ?|[|[|[|m]]]]; try (intros E; apply same_true in E; now left); auto. }
  split.
  - intros a. unfold ex_super. destruct a as [|? ?|[|[|n]]]; apply same_refl.
  - intros a b c P Q. destruct (D _ _ P) as [->|[[-> B]|[-> ->]]]; [exact Q| |].
    + destruct (D _ _ Q) as [<-|[[-> C]|[-> ->]]]; [exact P| |].
      * destruct B as [B|[B|B]]; discriminate.
      * reflexivity.
    + destruct (D _ _ Q) as [<-|[[? C]|[? ->]]]; [reflexivity|discriminate|discriminate].
  - intros a b P Q. destruct (D _ _ P) as [->|[[-> B]|[-> ->]]]; [reflexivity| |].
    + destruct B as [->|[->| ->]]; discriminate Q.
    + discriminate Q.
Qed.
Example C138_example :
  DerivedToFront ex_super (tlist [Other 0; Other 3; Other 1; Other 2]) = Some (tlist [Other 2; Other 3; Other 1; Other 0]) /\
  NoDuplicates (tlist [Other 5; Other 6; Other 5; Other 7; Other 6]) = Some (tlist [Other 5; Other 6; Other 7]).
Proof. split; vm_compute; reflexivity. Qed.

(** ** C139 *)
(** Seq<> is a list of one type, NullType, not the empty list; a type that is
    NullType or itself a typelist cannot be appended, and is lost or taken
    apart by Reverse. *)
Theorem C139_nested_refuted :
  Seq [] = Some (tlist [NullType]) /\
  Append (tlist [Other 1]) NullType = Some (tlist [Other 1]) /\
  Reverse (tlist [Other 1; tlist [Other 2; Other 3]]) = Some (tlist [Other 2; Other 3; Other 1]) /\
  Reverse (tlist [Other 1; NullType]) = Some (tlist [Other 1]).
Proof. repeat split; vm_compute; reflexivity. Qed.
Print Assumptions C139_nested_refuted.

(** ** C140 *)
(** Qualifiers: removing them leaves none and changes nothing else (adding
    them back gives the type); adding is undone by removing. *)
Lemma cv_unqual uc uv t : cv_of (unqual uc uv t) = (fst (cv_of t) && negb uc, snd (cv_of t) && negb uv).
Proof. induction t; cbn; auto. Qed.
Lemma unqual_ff t : unqual false false t = t.
Proof. induction t; cbn; rewrite ?andb_true_r; try reflexivity; now rewrite IHt. Qed.
Lemma unqual_unqual a b c d t : unqual a b (unqual c d t) = unqual (a || c) (b || d) t.
Proof. induction t; cbn; auto; try (f_equal; repeat match goal with x : bool |- _ => destruct x end; reflexivity); now rewrite IHt. Qed.
Lemma unqual_noop uc uv t : (uc = true -> fst (cv_of t) = false) -> (uv = true -> snd (cv_of t) = false) -> unqual uc uv t = t.
Proof.
  induction t; cbn; intros A B; try reflexivity;
    try (rewrite IHt by assumption; reflexivity);
    destruct uc, uv; cbn; rewrite ?andb_true_r, ?andb_false_r; try reflexivity;
    try (rewrite A by reflexivity); try (rewrite B by reflexivity); reflexivity.
Qed.
Lemma remove_cv_eq t : remove_cv t = unqual true true t.
Proof.
  unfold remove_cv, remove_const, remove_volatile.
  destruct (fst (cv_of t)) eqn:C.
  - rewrite cv_unqual. cbn [snd fst]. rewrite andb_true_r. destruct (snd (cv_of t)) eqn:V.
    + rewrite unqual_unqual. reflexivity.
    + assert (E : unqual true true t = unqual false true (unqual true false t)) by (rewrite unqual_unqual; reflexivity).
      rewrite E. symmetry. apply unqual_noop; [discriminate|]. intros _. rewrite cv_unqual. cbn. now rewrite V.
  - destruct (snd (cv_of t)) eqn:V.
    + assert (E : unqual true true t = unqual true false (unqual false true t)) by (rewrite unqual_unqual; reflexivity).
      rewrite E. symmetry. apply unqual_noop; [|discriminate]. intros _. rewrite cv_unqual. cbn. now rewrite C.
    + symmetry. apply unqual_noop; auto.
Qed.
Lemma qual_unqual t : qual (fst (cv_of t)) (snd (cv_of t)) (unqual true true t) = t.
Proof. induction t; cbn; try (f_equal; destruct c, v; reflexivity); try reflexivity; now rewrite IHt. Qed.
Lemma unqual_qual a b t : unqual true true (qual a b t) = unqual true true t.
Proof. induction t; cbn; rewrite ?andb_false_r; try reflexivity; now rewrite IHt. Qed.
Lemma qual_qual a b c d t : qual a b (qual c d t) = qual (c || a) (d || b) t.
Proof. induction t; cbn; rewrite ?orb_assoc; try reflexivity; now rewrite IHt. Qed.
Theorem C140_qualifiers t :
  is_const (remove_cv t) = false /\ is_volatile (remove_cv t) = false /\
  qual (is_const t) (is_volatile t) (remove_cv t) = t /\
  remove_cv (add_cv t) = remove_cv t /\
  (is_void t = false -> is_function (remove_all_extents t) = false -> is_reference (remove_all_extents t) = false ->
   is_const (add_const t) = true /\ is_volatile (add_volatile t) = true).
Proof.
  rewrite !remove_cv_eq. unfold is_const, is_volatile. rewrite !cv_unqual. cbn [fst snd]. rewrite !andb_false_r.
  split; [reflexivity|]. split; [reflexivity|]. split; [apply qual_unqual|].
  split; [unfold add_cv, add_volatile, add_const; rewrite qual_qual; apply unqual_qual|].
  intros _ Hf Hr. unfold add_const, add_volatile.
  induction t; cbn in *; rewrite ?orb_true_r; try (split; reflexivity); try discriminate; auto.
Qed.
Print Assumptions C140_qualifiers.
(** Arrays of any number of dimensions. *)
Theorem C140_arrays dims t i : is_array t = false ->
  rank (array_of dims t) = length dims /\
  extent (array_of dims t) i = match nth_error dims i with Some (Some n) => n | _ => 0 end /\
  remove_all_extents (array_of dims t) = t /\
  remove_extent (array_of dims t) = match dims with [] => t | _ :: d => array_of d t end.
Proof.
  intros N. split; [|split; [|split]].
  - induction dims as [|[n|] d IH]; cbn; [destruct t; try reflexivity; discriminate| |]; now rewrite IH.
  - revert i. induction dims as [|[n|] d IH]; intros [|i]; cbn; try apply IH; try reflexivity; destruct t; try reflexivity; discriminate.
  - induction dims as [|[n|] d IH]; cbn; [destruct t; try reflexivity; discriminate| |]; exact IH.
  - destruct dims as [|[n|] d]; cbn; [destruct t; try reflexivity; discriminate| |]; reflexivity.
Qed.
Print Assumptions C140_arrays.
(** References to any type: & wins over &&, a reference is dropped by
    remove_reference whichever it is, and void stays void. *)
Theorem C140_references t : is_void t = false ->
  add_lvalue_reference t = LRef (remove_reference t) /\
  add_rvalue_reference t = match t with LRef u => LRef u | _ => RRef (remove_reference t) end /\
  remove_reference (add_lvalue_reference t) = remove_reference t /\
  remove_reference (add_rvalue_reference t) = remove_reference t /\
  add_lvalue_reference (add_rvalue_reference t) = add_lvalue_reference t /\
  add_rvalue_reference (add_lvalue_reference t) = add_lvalue_reference t.
Proof.
  intros V. unfold add_lvalue_reference, add_rvalue_reference, is_referenceable, is_object.
  destruct t; cbn in *; rewrite ?V; cbn; repeat (split; [reflexivity|]); reflexivity.
Qed.
Print Assumptions C140_references.
Theorem C140_void_references c v : let t := F Void c v in
  add_lvalue_reference t = t /\ add_rvalue_reference t = t /\ remove_reference t = t.
Proof. destruct c, v; split; [reflexivity|split; reflexivity|reflexivity|split; reflexivity|reflexivity|split; reflexivity|reflexivity|split; reflexivity]. Qed.
Print Assumptions C140_void_references.
(** decay always gives a type by value, and leaves such types alone. *)
Theorem C140_decay t : wf t -> exists d, decay t = Some d /\ decay d = Some d /\
  is_reference d = false /\ is_array d = false /\ is_function d = false /\ is_const d = false /\ is_volatile d = false.
Proof.
  intros W.
  assert (K : forall u, is_reference u = false -> is_array u = false -> is_function u = false ->
    decay u = Some (remove_cv u) /\ is_reference (remove_cv u) = false /\ is_array (remove_cv u) = false /\ is_function (remove_cv u) = false).
  { intros u R A G. rewrite remove_cv_eq. unfold decay.
    assert (E : remove_reference u = u) by (destruct u; try reflexivity; discriminate).
    rewrite E, A, G, remove_cv_eq. split; [reflexivity|]. destruct u; cbn in *; auto; discriminate. }
  set (u := remove_reference t).
  assert (Ru : is_reference u = false).
  { subst u. destruct t; cbn in *; try reflexivity; destruct t; cbn in *; try reflexivity; tauto. }
  assert (Du : decay t = decay u).
  { unfold decay. replace (remove_reference u) with u by (destruct u; try reflexivity; discriminate). reflexivity. }
  rewrite Du.
  destruct (is_array u) eqn:A; [|destruct (is_function u) eqn:G].
  - exists (Ptr (remove_extent u) false false). unfold decay.
    replace (remove_reference u) with u by (destruct u; try reflexivity; discriminate). rewrite A.
    split; [reflexivity|]. split; [reflexivity|]. repeat split.
  - exists (Ptr u false false). unfold decay.
    replace (remove_reference u) with u by (destruct u; try reflexivity; discriminate). rewrite A, G.
    split; [destruct u; try discriminate; reflexivity|]. split; [reflexivity|]. repeat split.
  - destruct (K u Ru A G) as (E & R & A' & G'). exists (remove_cv u). split; [exact E|].
    destruct (K (remove_cv u) R A' G') as (E2 & _). split.
    + rewrite E2. f_equal. rewrite !remove_cv_eq, unqual_unqual. reflexivity.
    + split; [exact R|]. split; [exact A'|]. split; [exact G'|].
      unfold is_const, is_volatile. rewrite remove_cv_eq, cv_unqual. cbn. now rewrite !andb_false_r.
Qed.
Print Assumptions C140_decay.
(** Every type, however qualified, belongs to exactly one primary category,
    and to the right one unless it is a pointer to a const member function. *)
Theorem C140_categories t :
  (forall k n c v, t <> MemFun k true n c v) ->
  forall k, ask k t = category_eqb k (category_of t).
Proof.
  intros H k.
  assert (G : match t with MemFun _ q _ _ _ => q = false | _ => True end).
  { destruct t; trivial. destruct fconst; [|reflexivity]. exfalso. exact (H _ _ _ _ eq_refl). }
  clear H.
  destruct k; unfold ask, is_void, is_integral, is_floating_point, is_f, is_pointer, is_member_object_pointer, is_member_function_pointer, is_member_pointer;
    rewrite ?remove_cv_eq;
    destruct t as [f ? ?| | | | |? q ? ? ?| | | | |]; try subst q; cbn; try destruct f; cbn; rewrite ?andb_false_r; reflexivity.
Qed.
Print Assumptions C140_categories.
(** The composite ones: arithmetic, fundamental, scalar, object. *)
Theorem C140_composite t :
  is_arithmetic t = match category_of t with CInt | CFloat => true | _ => false end /\
  is_fundamental t = match category_of t with CInt | CFloat | CVoid => true | _ => false end /\
  is_scalar t = match category_of t with CInt | CFloat | CPtr | CMemObj | CMemFun | CEnum => true | _ => false end /\
  is_object t = match category_of t with CVoid | CLRef | CRRef | CFunc => false | _ => true end /\
  is_compound t = match category_of t with CInt | CFloat | CVoid => false | _ => true end.
Proof.
  unfold is_compound, is_scalar, is_fundamental, is_arithmetic, is_object, is_void, is_integral, is_floating_point, is_f, is_pointer, is_member_pointer.
  rewrite !remove_cv_eq. destruct t; cbn; try destruct f; cbn; rewrite ?andb_false_r; auto.
Qed.
Print Assumptions C140_composite.
(** make_signed, make_unsigned on the unqualified char, short, int, long and
    long long types: the type of the same size with or without a sign. *)
Definition std_int (f : fund) : bool := integer f && negb (fund_beq f Bool_) && negb (fund_beq f WChar).
Theorem C140_make_signed f : std_int f = true ->
  exists s u, make_signed (F f false false) = F s false false /\ make_unsigned (F f false false) = F u false false /\
    has_negatives s = true /\ has_negatives u = false /\ integer s = true /\ integer u = true /\ bits s = bits f /\ bits u = bits f /\
    make_unsigned (F s false false) = F u false false /\ make_signed (F u false false) = F s false false.
Proof. destruct f; try discriminate; intros _; do 2 eexists; repeat split. Qed.
Print Assumptions C140_make_signed.
Example C140_example :
  let a := array_of [None; Some 3; Some 4] (F Int true false) in
  is_const a = true /\ rank a = 3 /\ extent a 2 = 4 /\ decay (LRef a) = Some (Ptr (array_of [Some 3; Some 4] (F Int true false)) false false) /\
  remove_cv a = array_of [None; Some 3; Some 4] (F Int false false).
Proof. repeat split. Qed.

(** ** C141 *)
Theorem C141_signed_refuted :
  is_signed (F SChar false false) = false /\ is_signed (F Double false false) = false /\
  (forall n c v, is_unsigned (Class n c v) = true) /\ (forall t c v, is_unsigned (Ptr t c v) = true) /\
  is_unsigned (F SChar false false) = true /\ is_unsigned (F Float false false) = true.
Proof.
  repeat split; intros; unfold is_unsigned, is_signed, is_f; rewrite ?remove_cv_eq; reflexivity.
Qed.
Print Assumptions C141_signed_refuted.
(** A pointer to a const member function is said to be a pointer to an object. *)
Theorem C141_member_refuted k n :
  is_member_function_pointer (MemFun k true n false false) = false /\ is_member_object_pointer (MemFun k true n false false) = true.
Proof. split; reflexivity. Qed.
Print Assumptions C141_member_refuted.
(** add_pointer does not add to a pointer, and does not compile for a reference;
    remove_pointer leaves a const pointer alone. *)
Theorem C141_pointer_refuted t :
  add_pointer (Ptr t false false) = Some (Ptr t false false) /\ add_pointer (LRef t) = None /\
  remove_pointer (Ptr t true false) = Ptr t true false.
Proof. repeat split. Qed.
Print Assumptions C141_pointer_refuted.
(** make_signed and make_unsigned leave wchar_t and qualified types alone. *)
Theorem C141_make_signed_refuted :
  make_unsigned (F WChar false false) = F WChar false false /\ has_negatives WChar = true /\
  make_signed (F UInt true false) = F UInt true false.
Proof. repeat split. Qed.
Print Assumptions C141_make_signed_refuted.
(** TypeTraits does not know long long, nor long double. *)
Theorem C141_type_traits_refuted :
  tt_isIntegral (F LLong false false) = false /\ tt_isArith (F LDouble false false) = false /\
  tt_isSigned (F Char_ false false) = false.
Proof. repeat split. Qed.
Print Assumptions C141_type_traits_refuted.

(** ** C142 *)
(** min() and max() are the least and greatest values of the type, is_signed
    says whether it has negative ones, for every integer type but wchar_t;
    is_negative and sign are right for every value of it. *)
Theorem C142_limits f : integer f = true -> f <> WChar ->
  exists l, limits_of f = Some l /\ l_signed l = has_negatives f /\
    (forall x, value f x <-> (l_min l <= x <= l_max l)%Z) /\
    (forall x, value f x -> is_negative f x = Z.ltb x 0 /\ sign f x = Z.sgn x).
Proof.
  intros I N. unfold sign, is_negative.
  destruct f; try discriminate; try congruence; eexists; (split; [reflexivity|]); (split; [reflexivity|]);
    (split; [intros x; unfold value; cbn [has_negatives bits l_min l_max]; lia|]);
    intros x V; unfold value in V; cbn [has_negatives bits limits_of l_signed] in *;
    destruct (Z.ltb_spec 0 x); destruct (Z.ltb_spec x 0); split; lia.
Qed.
Print Assumptions C142_limits.
Example C142_example : exists l, limits_of Long = Some l /\ value Long (-9223372036854775808) /\ l_min l = (-9223372036854775808)%Z.
Proof. eexists. split; [reflexivity|]. split; [unfold value; cbn [has_negatives bits]; lia|reflexivity]. Qed.
(** TypeTraits: which types are signed, unsigned, integral or floating, through
    any const, volatile and reference. *)
Theorem C142_type_traits f c v r : (forall t, In (r t) [t; LRef t; RRef t]) -> f <> LLong -> f <> ULLong -> f <> LDouble ->
  tt_isIntegral (r (F f c v)) = integer f /\ tt_isFloat (r (F f c v)) = floating f /\
  tt_isArith (r (F f c v)) = (integer f || floating f) /\
  tt_isSigned (F f c v) = (floating f || existsb (fund_beq f) [SChar; Short; Int; Long])%bool /\
  (f <> Void -> tt_isFundamental (r (F f c v)) = true) /\ tt_isFundamental (F Void false false) = true.
Proof.
  intros R A B D. specialize (R (F f c v)). cbn [In] in R.
  destruct R as [<-|[<-|[<-|[]]]]; destruct f, c, v; try congruence; repeat match goal with |- _ /\ _ => split end; intros; try congruence; try reflexivity.
Qed.
Print Assumptions C142_type_traits.
(** isConst and isVolatile are the qualifiers of the type, or of what the
    reference refers to. *)
Theorem C142_qualifiers f c v r : (forall t, In (r t) [t; LRef t; RRef t]) ->
  tt_isConst (r (F f c v)) = c /\ tt_isVolatile (r (F f c v)) = v.
Proof.
  intros R. specialize (R (F f c v)). cbn [In] in R. destruct R as [<-|[<-|[<-|[]]]]; split; destruct c, v; reflexivity.
Qed.
Print Assumptions C142_qualifiers.

(** ** C143 *)
(** wchar_t is signed on Linux: its negative values are below min(), and
    is_negative does not see them. *)
Theorem C143_wchar_refuted : exists l x, limits_of WChar = Some l /\ value WChar x /\ (x < l_min l)%Z /\ l_signed l = false /\
  is_negative WChar x = false /\ sign WChar x = 0%Z.
Proof.
  eexists. exists (-5)%Z. split; [reflexivity|]. split; [unfold value; cbn [has_negatives bits]; lia|]. repeat split.
Qed.
Print Assumptions C143_wchar_refuted.
(** digits counts the sign bit: 2^digits - 1 is not a value of any signed type. *)
Theorem C143_digits_refuted f : integer f = true -> has_negatives f = true -> ~ value f (2 ^ l_digits f - 1).
Proof. intros I S. unfold value, l_digits. destruct f; try discriminate; cbn [has_negatives bits]; lia. Qed.
Print Assumptions C143_digits_refuted.
(** digits10 is one too high: 10^digits10 - 1 is not a value of any type. *)
Theorem C143_digits10_refuted f : integer f = true -> ~ value f (10 ^ l_digits10 f - 1).
Proof. intros I V. unfold value in V. destruct f; try discriminate; vm_compute in V; destruct V as [_ V]; apply V; reflexivity. Qed.
Print Assumptions C143_digits10_refuted.
(** bool is an integer type, but numeric_limits says it is not. *)
Theorem C143_bool_refuted : exists l, limits_of Bool_ = Some l /\ l_integer l = false /\ is_integral (F Bool_ false false) = true.
Proof. eexists. repeat split. Qed.
Print Assumptions C143_bool_refuted.
