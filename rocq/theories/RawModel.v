(** * RawModel: construction and destruction in raw storage (umemory.h).

    A block of storage is a list of cells: [None] is raw memory, [Some x] a
    living object with value [x].  The block starts at address [base] and a
    cell takes [es] bytes; a pointer is the number of a cell and its address
    is [base + i * es], so one before the block is possible.  The world
    answers every constructor call: [true] it succeeds, [false] it throws;
    when the answers run out they succeed.  Destructors do not throw. *)
From Coq Require Import ZArith.
From Verif Require Import Base.
Local Open Scope Z_scope.

Section Raw.
  Context {T : Type}.
  Variable base es : Z.
  Variable dflt : T.                (* T() *)
  Variable zero : T.                (* all bytes zero *)
  Variable pod : bool.              (* is_pod<T>::value *)
  Variable mv : T -> T * T.         (* T(move(x)): the new object and what is left in x *)

  (** Block, answers, objects constructed minus objects destroyed, and how the
      call ended ([None]: with an exception). *)
  Record rst := R { r_cells : list (option T); r_ans : list bool; r_live : Z }.

  (** reinterpret: intptr_t of a pointer. *)
  Definition s64 (x : Z) : Z := let u := x mod 2 ^ 64 in if u <? 2 ^ 63 then u else u - 2 ^ 64.
  Definition addr (i : Z) : Z := s64 (base + i * es).

  Definition cell_rd (s : rst) (i : Z) : outcome (option T) := if i <? 0 then UB else rd (r_cells s) (Z.to_nat i).
  Definition cell_wr (s : rst) (i : Z) (c : option T) (d : Z) : outcome rst :=
    if i <? 0 then UB else cs <- wr (r_cells s) (Z.to_nat i) c ;; Ok (R cs (r_ans s) (r_live s + d)).
  (** The value of a living object. *)
  Definition obj_rd (s : rst) (i : Z) : outcome T := c <- cell_rd s i ;; match c with Some x => Ok x | None => UB end.
  Definition ask (s : rst) : bool * rst :=
    match r_ans s with [] => (true, s) | b :: t => (b, R (r_cells s) t (r_live s)) end.

  (** umemory.h:307-316 [construct_at (p)], [construct_at (p, value)] and
      328-330 [construct (p)]: placement new. *)
  Definition construct_at (s : rst) (i : Z) (x : T) : outcome (rst * bool) :=
    let '(ok, s) := ask s in
    if ok then s <- cell_wr s i (Some x) 1 ;; Ok (s, true) else Ok (s, false).
  (** umemory.h:322-324 [construct_at (p, move (star q))]; moving may change the source. *)
  Definition construct_from (s : rst) (i j : Z) : outcome (rst * bool) :=
    x <- obj_rd s j ;;
    let '(ok, s) := ask s in
    if ok then s <- cell_wr s j (Some (snd (mv x))) 0 ;; s <- cell_wr s i (Some (fst (mv x))) 1 ;; Ok (s, true)
    else Ok (s, false).
  (** umemory.h:370-372 [destroy_at]; 374-376 [destroy (p)]. *)
  Definition destroy_at (s : rst) (i : Z) : outcome rst := _ <- obj_rd s i ;; cell_wr s i None (-1).

  (** The loops [for (--last; intptr_t(first) <= intptr_t(last); ++first)]. *)
  Fixpoint ptr_loop (fuel : nat) (body : rst -> Z -> outcome (rst * bool)) (s : rst) (first last : Z) : outcome (rst * bool) :=
    match fuel with
    | O => NoFuel
    | S k =>
        if addr first <=? addr last then
          ' (s, ok) <- body s first ;; if ok : bool then ptr_loop k body s (first + 1) last else Ok (s, false)
        else Ok (s, true)
    end.
  (** memset: the cells become objects of zero bytes. *)
  Fixpoint zero_cells (s : rst) (first : Z) (n : nat) : outcome rst :=
    match n with O => Ok s | S k => s <- cell_wr s first (Some zero) 1 ;; zero_cells s (first + 1) k end.

  (** umemory.h:334-347 [uninitialized_default_construct]; 328-330, 348-353 the other names. *)
  Definition uninitialized_default_construct (fuel : nat) (s : rst) (first last : Z) : outcome (rst * bool) :=
    if pod then s <- zero_cells s first (Z.to_nat (Z.max (last - first) 0)) ;; Ok (s, true)
    else ptr_loop fuel (fun s i => construct_at s i dflt) s first (last - 1).
  Definition uninitialized_default_construct_n (fuel : nat) (s : rst) (first : Z) (n : nat) :=
    uninitialized_default_construct fuel s first (first + Z.of_nat n).
  (** umemory.h:356-362 [uninitialized_value_construct]: a temporary that is
      moved into the cell and destroyed; 363-365 _n. *)
  Definition value_construct_at (s : rst) (i : Z) : outcome (rst * bool) :=
    let '(ok, s) := ask s in
    if ok then
      let s := R (r_cells s) (r_ans s) (r_live s + 1) in          (* the temporary *)
      ' (s, ok) <- construct_at s i (fst (mv dflt)) ;;
      Ok (R (r_cells s) (r_ans s) (r_live s - 1), ok)             (* its end *)
    else Ok (s, false).
  Definition uninitialized_value_construct (fuel : nat) (s : rst) (first last : Z) : outcome (rst * bool) :=
    ptr_loop fuel value_construct_at s first (last - 1).
  (** umemory.h:381-409 [destroy], [dtors], [Sdtorsr], [destroy_n]: nothing is
      called for pod types, whose objects just end. *)
  Fixpoint end_cells (s : rst) (first : Z) (n : nat) : outcome rst :=
    match n with O => Ok s | S k => s <- cell_wr s first None (-1) ;; end_cells s (first + 1) k end.
  Definition destroy (fuel : nat) (s : rst) (first last : Z) : outcome rst :=
    if pod then end_cells s first (Z.to_nat (last - first))
    else ' (s, _) <- ptr_loop fuel (fun s i => s <- destroy_at s i ;; Ok (s, true)) s first (last - 1) ;; Ok s.
  Definition destroy_n (fuel : nat) (s : rst) (first : Z) (n : nat) : outcome rst := destroy fuel s first (first + Z.of_nat n).

  (** umemory.h:440-446 [uninitialized_copy]; source and destination in the
      block.  [None] when a constructor threw. *)
  Fixpoint uninitialized_copy (fuel : nat) (s : rst) (first last result : Z) : outcome (rst * option Z) :=
    match fuel with
    | O => NoFuel
    | S k =>
        if first <? last then
          x <- obj_rd s first ;;
          ' (s, ok) <- construct_at s result x ;;
          if ok : bool then uninitialized_copy k s (first + 1) last (result + 1) else Ok (s, None)
        else Ok (s, Some result)
    end.
  (** umemory.h:451-457 [uninitialized_copy_n]: [for (++n; --n; ...)] with a
      size_t that wraps. *)
  Fixpoint copy_n_loop (fuel : nat) (s : rst) (first n result : Z) : outcome (rst * option Z) :=
    match fuel with
    | O => NoFuel
    | S k =>
        let n := (n - 1) mod 2 ^ 64 in
        if n =? 0 then Ok (s, Some result)
        else
          x <- obj_rd s first ;;
          ' (s, ok) <- construct_at s result x ;;
          if ok : bool then copy_n_loop k s (first + 1) n (result + 1) else Ok (s, None)
    end.
  Definition uninitialized_copy_n (fuel : nat) (s : rst) (first n result : Z) :=
    copy_n_loop fuel s first ((n + 1) mod 2 ^ 64) result.
  (** umemory.h:462-467 [uninitialized_fill]. *)
  Fixpoint uninitialized_fill (fuel : nat) (s : rst) (first last : Z) (v : T) : outcome (rst * bool) :=
    match fuel with
    | O => NoFuel
    | S k =>
        if first <? last then
          ' (s, ok) <- construct_at s first v ;;
          if ok : bool then uninitialized_fill k s (first + 1) last v else Ok (s, false)
        else Ok (s, true)
    end.
  (** umemory.h:472-478 [uninitialized_fill_n]. *)
  Fixpoint fill_n_loop (fuel : nat) (s : rst) (first n : Z) (v : T) : outcome (rst * option Z) :=
    match fuel with
    | O => NoFuel
    | S k =>
        let n := (n - 1) mod 2 ^ 64 in
        if n =? 0 then Ok (s, Some first)
        else
          ' (s, ok) <- construct_at s first v ;;
          if ok : bool then fill_n_loop k s (first + 1) n v else Ok (s, None)
    end.
  Definition uninitialized_fill_n (fuel : nat) (s : rst) (first n : Z) (v : T) :=
    fill_n_loop fuel s first ((n + 1) mod 2 ^ 64) v.
  (** umemory.h:485-491 [uninitialized_move]. *)
  Fixpoint uninitialized_move (fuel : nat) (s : rst) (first last result : Z) : outcome (rst * option Z) :=
    match fuel with
    | O => NoFuel
    | S k =>
        if first <? last then
          ' (s, ok) <- construct_from s result first ;;
          if ok : bool then uninitialized_move k s (first + 1) last (result + 1) else Ok (s, None)
        else Ok (s, Some result)
    end.
  (** umemory.h:496-502 [uninitialized_move_n]. *)
  Fixpoint move_n_loop (fuel : nat) (s : rst) (first n result : Z) : outcome (rst * option Z) :=
    match fuel with
    | O => NoFuel
    | S k =>
        let n := (n - 1) mod 2 ^ 64 in
        if n =? 0 then Ok (s, Some result)
        else
          ' (s, ok) <- construct_from s result first ;;
          if ok : bool then move_n_loop k s (first + 1) n (result + 1) else Ok (s, None)
    end.
  Definition uninitialized_move_n (fuel : nat) (s : rst) (first n result : Z) :=
    move_n_loop fuel s first ((n + 1) mod 2 ^ 64) result.
End Raw.
