(** * ScopeModel: scope_exit and unique_resource (umemory.h:216-300) in programs
    with nested blocks, loops, calls, return and exceptions.

    Programs use local variables only.  The live guards (scope_exit or
    unique_resource objects whose lifetime has begun and not ended) form a
    stack, the youngest first; statements name them by their place in it.  Every
    callback handed to a guard gets a number [gid], so that the log tells which
    one ran; a unique_resource is a guard whose callback is its deleter applied
    to the resource (PtrModel has the resources themselves). *)
From Verif Require Import Base.

(** A callback: what it shows when it is called, and the exception it throws, if any. *)
Record callback := mkcb { cb_tag : nat; cb_throws : option nat }.

Inductive event :=
| Act (n : nat)                     (* something the program does *)
| Made (g : nat) (tag : nat)        (* callback number g was given to a guard *)
| Ran (g : nat) (tag : nat)         (* it was called *)
| Dropped (g : nat) (tag : nat)     (* responsibility for it was given up by release() *)
.

(** umemory.h:230-231, 281-284: _f (or _resource, _deleter) and _enabled. *)
Record guard := mkguard { gid : nat; gcb : callback; genabled : bool }.

Record st := mkst { live : list guard; next : nat; log : list event }.

Inductive completion := Normal | Returned | Thrown (x : nat).

(** [Dead]: std::terminate was called; [Wrong]: the program names a guard that does not exist. *)
Inductive result := Done (c : completion) (s : st) | Dead (l : list event) | Wrong.

Definition say (e : event) (s : st) : st := mkst (live s) (next s) (log s ++ [e]).
Definition set_live (l : list guard) (s : st) : st := mkst l (next s) (log s).

Definition put (k : nat) (g : guard) (l : list guard) : list guard := firstn k l ++ g :: skipn (S k) l.

(** umemory.h:224 [~scope_exit], 255-260 [unique_resource::reset ()], 250-251 its
    destructor.  All are noexcept: the operand of the inner noexcept is
    declval<F>() and not a call, and declval is noexcept (uttraits.h:271); so an
    exception in the callback ends the program.  [None]: it did. *)
Definition fire (g : guard) (lg : list event) : option (list event) * list event :=
  if genabled g then
    let lg' := lg ++ [Ran (gid g) (cb_tag (gcb g))] in
    match cb_throws (gcb g) with None => (Some lg', lg') | Some _ => (None, lg') end
  else (Some lg, lg).

(** The end of a scope: the objects declared in it are destroyed, youngest
    first, until [h] are left. *)
Fixpoint unwind (n : nat) (s : st) : option st * list event :=
  match n with
  | O => (Some s, log s)
  | S n' =>
      match live s with
      | [] => (Some s, log s)
      | g :: l =>
          match fire g (log s) with
          | (Some lg, _) => unwind n' (mkst l (next s) lg)
          | (None, lg) => (None, lg)
          end
      end
  end.

Definition leave (h : nat) (c : completion) (s : st) : result :=
  match unwind (length (live s) - h) s with (Some s', _) => Done c s' | (None, l) => Dead l end.

Inductive stmt :=
| Skip
| Do (n : nat)
| Seq (a b : stmt)
| Throw (x : nat)
| Return
| Guard (c : callback)          (* scope_exit g (c), unique_resource g (r, d): umemory.h:221, 246-247 *)
| GuardOff (c : callback)       (* make_unique_resource_checked with the invalid value: 295-299 *)
| MoveNew (k : nat)             (* a new guard constructed from move(k): 222, 248-249 *)
| Assign (k j : nat)            (* unique_resource: k = move(j): 268-275 *)
| Release (k : nat)             (* 223, 254 *)
| Reset (k : nat)               (* unique_resource::reset (): 255-260 *)
| ResetTo (k : nat) (c : callback) (* unique_resource::reset (r): 261-265 *)
| Block (b : stmt)
| Try (b h : stmt)              (* try { b } catch (...) { h } *)
| Loop (n : nat) (b : stmt)     (* n times { b } *)
| Call (b : stmt)               (* a call of a function or lambda with body b *)
.

(** umemory.h:223, 254 [release]: _enabled = false. *)
Definition do_release (k : nat) (s : st) : result :=
  match nth_error (live s) k with
  | None => Wrong
  | Some g =>
      let s' := set_live (put k (mkguard (gid g) (gcb g) false) (live s)) s in
      Done Normal (if genabled g then say (Dropped (gid g) (cb_tag (gcb g))) s' else s')
  end.

(** umemory.h:222, 248-249: the new object takes the callback and the flag; the
    old one is released (it keeps a moved-from callback, which is never called). *)
Definition do_move (k : nat) (s : st) : result :=
  match nth_error (live s) k with
  | None => Wrong
  | Some g => Done Normal (set_live (g :: put k (mkguard (gid g) (gcb g) false) (live s)) s)
  end.

(** umemory.h:255-260: the flag is cleared before the deleter is called. *)
Definition do_reset (k : nat) (s : st) : result :=
  match nth_error (live s) k with
  | None => Wrong
  | Some g =>
      match fire g (log s) with
      | (Some lg, _) => Done Normal (mkst (put k (mkguard (gid g) (gcb g) false) (live s)) (next s) lg)
      | (None, lg) => Dead lg
      end
  end.

(** umemory.h:261-265 [reset (R&&)]: reset, take the new resource, enabled. *)
Definition do_reset_to (k : nat) (c : callback) (s : st) : result :=
  match do_reset k s with
  | Done _ s1 => Done Normal (mkst (put k (mkguard (next s1) c true) (live s1)) (S (next s1)) (log s1 ++ [Made (next s1) (cb_tag c)]))
  | r => r
  end.

(** umemory.h:268-275 [operator= (unique_resource&&)]: reset(), take deleter,
    resource and flag of the other as they are then, release the other. *)
Definition do_assign (k j : nat) (s : st) : result :=
  match do_reset k s with
  | Done _ s1 =>
      match nth_error (live s1) j with
      | None => Wrong
      | Some g =>
          let l2 := put k g (live s1) in
          match nth_error l2 j with
          | None => Wrong
          | Some g' => Done Normal (set_live (put j (mkguard (gid g') (gcb g') false) l2) s1)
          end
      end
  | r => r
  end.

Fixpoint exec (p : stmt) (s : st) {struct p} : result :=
  match p with
  | Skip => Done Normal s
  | Do n => Done Normal (say (Act n) s)
  | Seq a b => match exec a s with Done Normal s1 => exec b s1 | r => r end
  | Throw x => Done (Thrown x) s
  | Return => Done Returned s
  | Guard c => Done Normal (mkst (mkguard (next s) c true :: live s) (S (next s)) (log s ++ [Made (next s) (cb_tag c)]))
  | GuardOff c => Done Normal (mkst (mkguard (next s) c false :: live s) (S (next s)) (log s ++ [Made (next s) (cb_tag c); Dropped (next s) (cb_tag c)]))
  | MoveNew k => do_move k s
  | Assign k j => do_assign k j s
  | Release k => do_release k s
  | Reset k => do_reset k s
  | ResetTo k c => do_reset_to k c s
  | Block b => match exec b s with Done c s1 => leave (length (live s)) c s1 | r => r end
  | Try b h =>
      match exec b s with
      | Done c s1 =>
          match leave (length (live s)) c s1 with
          | Done (Thrown _) s2 =>
              match exec h s2 with Done c' s3 => leave (length (live s)) c' s3 | r => r end
          | r => r
          end
      | r => r
      end
  | Loop n b =>
      (fix go (n : nat) (s : st) : result :=
         match n with
         | O => Done Normal s
         | S n' =>
             match exec b s with
             | Done c s1 =>
                 match leave (length (live s)) c s1 with
                 | Done Normal s2 => go n' s2
                 | r => r
                 end
             | r => r
             end
         end) n s
  | Call b =>
      match exec b s with
      | Done c s1 => leave (length (live s)) (match c with Returned => Normal | _ => c end) s1
      | r => r
      end
  end.

(** A whole program. *)
Definition program (b : stmt) : result := exec (Block b) (mkst [] 0 []).
