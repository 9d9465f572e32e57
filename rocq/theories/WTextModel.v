(** * WTextModel: characters, wide characters and bitsets in text streams
    (sistream.cc, sostream.cc, uspecial.h).

    Characters are unsigned bytes as in IstrModel.v. *)
From Verif Require Import Base UtilModel Utf8Model BitsetModel StreamModel FileModel OStrModel IstrModel.
From Coq Require Import ZArith.
Local Open Scope Z_scope.

(** A byte as the signed char skip_delimiters returns. *)
Definition schar (c : Z) : Z := if c <? 128 then c else c - 256.
Section Virtual.
  Variable uf : Z -> io ist Z.
  (** sistream.h:33 [iread (char&)]. *)
  Definition iread_char (fuel : nat) : io ist Z := skip_delimiters uf fuel.
  (** sistream.cc:118-121: *utf8in (ipos()), then skip.  All the bytes of the
      sequence are in the view here, so reading them does not go past it. *)
  Definition take_wchar (cs : Z) : io ist Z :=
    fun s => match (l <- t_bytes (t_pos s) (Z.to_nat cs) s ;; ' (_, v) <- utf8_read l 0 ;; Ok v) with
             | Ok v => (_ <~ t_skip cs ;; ret v) s
             | _ => UB
             end.
  (** sistream.cc:110-122 [iread (wchar_t&)]: the value left in v. *)
  Definition iread_wchar (fuel : nat) : io ist Z :=
    c <~ skip_delimiters uf fuel ;;
    if c =? 0 then ret 0
    else _ <~ t_ungetc ;;
         fun s =>
           match seq_bytes c with
           | Ok cs =>
               (b <~ (fun s => if t_remaining s <? cs then (r <~ uf cs ;; ret (r <? cs)) s else Ok (s, Val false)) ;;
                if b then _ <~ t_verify cs ;; ret (schar c) else take_wchar cs) s
           | _ => UB
           end.
  (** uspecial.h:117-123 [bitset::text_read]; [i] is the loop variable plus one. *)
  Fixpoint bs_text_read (sz fuel : nat) (i : nat) (ws : list Z) : io ist (list Z) :=
    match i with
    | O => ret ws
    | S i' =>
        c <~ iread_char fuel ;;
        fun s => if t_good s
                 then match bs_set sz ws i' (c =? 49) with
                      | Ok ws' => bs_text_read sz fuel i' ws' s
                      | _ => UB
                      end
                 else Ok (s, Val ws)
    end.
End Virtual.

(** sostream.cc:106-111 [iwrite (wchar_t)]: the operation on the stream. *)
Definition wchar_op (v : Z) : outcome oop :=
  l <- utf8_out v ;; Ok (OWrite (firstn (Z.to_nat (utf8_bytes v)) l)).
Fixpoint wchar_ops (l : list Z) : outcome (list oop) :=
  match l with [] => Ok [] | v :: t => o <- wchar_op v ;; r <- wchar_ops t ;; Ok (o :: r) end.
(** ubitset.h:126 [bitset::text_write]. *)
Definition bs_text_op (sz : nat) (ws : list Z) : outcome oop := t <- bs_to_string sz ws ;; Ok (OWrite t).
