(** * FunObjModel: algorithms that call function objects with a memory.

    A function object is its behaviour when called: [W] is everything it can
    see and change apart from the elements passed to it (its own members, the
    variables it refers to, output ...).  A call takes [W] to a new [W] and
    either returns a value or throws ([None]).  The ranges lie in one array
    [a] and iterators are indices; [n] is the number of steps to [last].  The
    results tell the array, [W] and the returned iterator or value ([None]: an
    exception went through). *)
From Verif Require Import Base.

Section FunObj.
  Context {A W : Type}.

  (** A call of a function that takes the element by reference: the new [W],
      the element afterwards, and whether the call threw. *)
  Definition ref_fn : Type := W -> A -> W * A * bool.
  (** A call that returns a [B] or throws. *)
  Definition val_fn (X B : Type) : Type := W -> X -> W * option B.

  (** ualgobase.h:119-125 [for_each]; it returns the function object, whose
      members are part of [W]. *)
  Fixpoint fo_for_each (f : ref_fn) (n : nat) (a : list A) (first : nat) (w : W) : outcome (list A * W * option unit) :=
    match n with
    | O => Ok (a, w, Some tt)
    | S k =>
        x <- rd a first ;;
        let '(w', x', threw) := f w x in
        a' <- wr a first x' ;;
        if threw : bool then Ok (a', w', None) else fo_for_each f k a' (S first) w'
    end.

  (** ualgo.h:157-162 [generate]. *)
  Fixpoint fo_generate (gen : val_fn unit A) (n : nat) (a : list A) (first : nat) (w : W) : outcome (list A * W * option unit) :=
    match n with
    | O => Ok (a, w, Some tt)
    | S k =>
        match gen w tt with
        | (w', None) => Ok (a, w', None)
        | (w', Some y) => a' <- wr a first y ;; fo_generate gen k a' (S first) w'
        end
    end.
  (** ualgo.h:170-176 [generate_n]; the iterator after the last element comes back. *)
  Fixpoint fo_generate_n (gen : val_fn unit A) (n : nat) (a : list A) (first : nat) (w : W) : outcome (list A * W * option nat) :=
    match n with
    | O => Ok (a, w, Some first)
    | S k =>
        match gen w tt with
        | (w', None) => Ok (a, w', None)
        | (w', Some y) => a' <- wr a first y ;; fo_generate_n gen k a' (S first) w'
        end
    end.

  (** ualgo.h:96-102 [transform] with a unary operation. *)
  Fixpoint fo_transform (op : val_fn A A) (n : nat) (a : list A) (first result : nat) (w : W) : outcome (list A * W * option nat) :=
    match n with
    | O => Ok (a, w, Some result)
    | S k =>
        x <- rd a first ;;
        match op w x with
        | (w', None) => Ok (a, w', None)
        | (w', Some y) => a' <- wr a result y ;; fo_transform op k a' (S first) (S result) w'
        end
    end.
  (** ualgo.h:116-122 [transform] with a binary operation. *)
  Fixpoint fo_transform2 (op : val_fn (A * A) A) (n : nat) (a : list A) (first1 first2 result : nat) (w : W)
    : outcome (list A * W * option nat) :=
    match n with
    | O => Ok (a, w, Some result)
    | S k =>
        x <- rd a first1 ;;
        y <- rd a first2 ;;
        match op w (x, y) with
        | (w', None) => Ok (a, w', None)
        | (w', Some z) => a' <- wr a result z ;; fo_transform2 op k a' (S first1) (S first2) (S result) w'
        end
    end.

  (** upredalgo.h:16-26 [copy_if]. *)
  Fixpoint fo_copy_if (pred : val_fn A bool) (n : nat) (a : list A) (first result : nat) (w : W) : outcome (list A * W * option nat) :=
    match n with
    | O => Ok (a, w, Some result)
    | S k =>
        x <- rd a first ;;
        match pred w x with
        | (w', None) => Ok (a, w', None)
        | (w', Some true) => a' <- wr a result x ;; fo_copy_if pred k a' (S first) (S result) w'
        | (w', Some false) => fo_copy_if pred k a (S first) result w'
        end
    end.
  (** upredalgo.h:133-140 [remove_copy_if]; 152-156 [remove_if] is the same
      with [result == first]. *)
  Fixpoint fo_remove_copy_if (pred : val_fn A bool) (n : nat) (a : list A) (first result : nat) (w : W) : outcome (list A * W * option nat) :=
    match n with
    | O => Ok (a, w, Some result)
    | S k =>
        x <- rd a first ;;
        match pred w x with
        | (w', None) => Ok (a, w', None)
        | (w', Some false) => a' <- wr a result x ;; fo_remove_copy_if pred k a' (S first) (S result) w'
        | (w', Some true) => fo_remove_copy_if pred k a (S first) result w'
        end
    end.
  Definition fo_remove_if (pred : val_fn A bool) (n : nat) (a : list A) (first : nat) (w : W) := fo_remove_copy_if pred n a first first w.

  (** upredalgo.h:85-93 [count_if]. *)
  Fixpoint fo_count_if (pred : val_fn A bool) (n : nat) (a : list A) (first total : nat) (w : W) : outcome (W * option nat) :=
    match n with
    | O => Ok (w, Some total)
    | S k =>
        x <- rd a first ;;
        match pred w x with
        | (w', None) => Ok (w', None)
        | (w', Some b) => fo_count_if pred k a (S first) (if b then S total else total) w'
        end
    end.
  (** upredalgo.h:33-39 [find_if]. *)
  Fixpoint fo_find_if (pred : val_fn A bool) (n : nat) (a : list A) (first : nat) (w : W) : outcome (W * option nat) :=
    match n with
    | O => Ok (w, Some first)
    | S k =>
        x <- rd a first ;;
        match pred w x with
        | (w', None) => Ok (w', None)
        | (w', Some true) => Ok (w', Some first)
        | (w', Some false) => fo_find_if pred k a (S first) w'
        end
    end.
  (** upredalgo.h:101-107 [replace_if]. *)
  Fixpoint fo_replace_if (pred : val_fn A bool) (n : nat) (a : list A) (first : nat) (v : A) (w : W) : outcome (list A * W * option unit) :=
    match n with
    | O => Ok (a, w, Some tt)
    | S k =>
        x <- rd a first ;;
        match pred w x with
        | (w', None) => Ok (a, w', None)
        | (w', Some true) => a' <- wr a first v ;; fo_replace_if pred k a' (S first) v w'
        | (w', Some false) => fo_replace_if pred k a (S first) v w'
        end
    end.
  (** unumeric.h:24-30 [accumulate] with a function, as an order of calls. *)
  Fixpoint fo_accumulate {B} (op : val_fn (B * A) B) (n : nat) (a : list A) (first : nat) (init : B) (w : W) : outcome (W * option B) :=
    match n with
    | O => Ok (w, Some init)
    | S k =>
        x <- rd a first ;;
        match op w (init, x) with
        | (w', None) => Ok (w', None)
        | (w', Some r) => fo_accumulate op k a (S first) r w'
        end
    end.
End FunObj.
