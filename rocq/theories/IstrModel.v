(** * IstrModel: istringstream and ifstream, reading text.

    [t_mem] is the memory from begin() on: the view ([t_size] bytes) and what
    lies after it; [None] is a byte never written.  Reading further than that
    is [UB].  The virtual underflow() is the parameter [uf].  A string or array
    that is filled is the list of its bytes.  [fuel] bounds loops.
    Simplified: exceptions() is always goodbit, as the constructors set it
    (sistream.cc:15-53), so nothing throws; the strings the text is read into
    always get the memory they need; strtod is not modelled. *)
From Verif Require Import Base UtilModel StringFindModel StreamModel FileModel.
From Coq Require Import ZArith.
Local Open Scope Z_scope.

(** mistream.h:64-106, sistream.h:78-82, ofstream.h:68-70.  [t_base] is what
    read_number passes on for the flags (16 hex, 8 oct, 0 otherwise). *)
Record ist := mkt { t_mem : list (option Z); t_size : Z; t_pos : Z; t_state : Z;
                    t_gcount : Z; t_delims : list Z; t_base : Z; t_file : file }.
Definition tput_pos (p : Z) (s : ist) : ist :=
  mkt (t_mem s) (t_size s) p (t_state s) (t_gcount s) (t_delims s) (t_base s) (t_file s).
Definition tput_state (x : Z) (s : ist) : ist :=
  mkt (t_mem s) (t_size s) (t_pos s) x (t_gcount s) (t_delims s) (t_base s) (t_file s).
Definition tput_gcount (g : Z) (s : ist) : ist :=
  mkt (t_mem s) (t_size s) (t_pos s) (t_state s) (u32 g) (t_delims s) (t_base s) (t_file s).
Definition tput_file (f : file) (s : ist) : ist :=
  mkt (t_mem s) (t_size s) (t_pos s) (t_state s) (t_gcount s) (t_delims s) (t_base s) f.
(** istream::link (mistream.h:70, cmemlink.h:59): unlink sets the position to 0. *)
Definition tput_view (m : list (option Z)) (n : Z) (s : ist) : ist :=
  mkt m n 0 (t_state s) (t_gcount s) (t_delims s) (t_base s) (t_file s).

Definition t_remaining (s : ist) : Z := u64 (t_size s - t_pos s).               (* mistream.h:79 *)
Definition t_at (i : Z) (s : ist) : outcome Z :=
  if i <? 0 then UB else
  match nth_error (t_mem s) (Z.to_nat i) with Some (Some c) => Ok c | _ => UB end.
Definition t_good (s : ist) : bool := t_state s =? 0.
(** mistream.cc:17-21 with the mask goodbit. *)
Definition t_overrun (rem : Z) : io ist unit := fun s => Ok (tput_state (Z.lor (t_state s) (overrun_bits rem)) s, Val tt).
(** mistream.h:172-178. *)
Definition t_verify (n : Z) : io ist bool :=
  fun s => let rem := t_remaining s in if n <=? rem then Ok (s, Val true) else (_ <~ t_overrun rem ;; ret false) s.
(** mistream.h:181-190. *)
Definition t_seek (p : Z) : io ist unit :=
  fun s => if t_size s <? p then t_overrun (t_size s) s else Ok (tput_pos p s, Val tt).
Definition t_skip (n : Z) : io ist unit := fun s => t_seek (u64 (t_pos s + n)) s.   (* mistream.h:209-212 *)
Definition t_ungetc : io ist unit := fun s => t_seek (u64 (t_pos s - 1)) s.         (* mistream.h:101 *)
(** mistream.h:221-233 [iread] of a char: [None] if there is none, and the
    variable keeps its value. *)
Definition t_iread : io ist (option Z) :=
  ok <~ t_verify 1 ;;
  if ok then fun s => match t_at (t_pos s) s with
                      | Ok c => Ok (tput_pos (u64 (t_pos s + 1)) s, Val (Some c))
                      | _ => UB
                      end
  else ret None.
(** The bytes [i, i+n) of memory. *)
Fixpoint t_bytes (i : Z) (n : nat) (s : ist) : outcome (list Z) :=
  match n with
  | O => Ok []
  | S n' => c <- t_at i s ;; r <- t_bytes (i + 1) n' s ;; Ok (c :: r)
  end.
(** mistream.h:236-246 [istream::read]: [None] if the buffer is untouched. *)
Definition t_raw (n : Z) : io ist (option (list Z)) :=
  ok <~ t_verify n ;;
  if ok then fun s => match t_bytes (t_pos s) (Z.to_nat n) s with
                      | Ok l => Ok (tput_pos (u64 (t_pos s + n)) s, Val (Some l))
                      | _ => UB
                      end
  else ret None.

(** sistream.h:95-104 [set_delimiters]: at most 15 are kept, the rest is zero. *)
Definition delimiters (d : list Z) : list Z := firstn 15 d ++ repeat 0 (16 - length (firstn 15 d)).
(** sistream.cc:12: " \t\n\r;:,.?". *)
Definition default_delimiters : list Z := delimiters [32; 9; 10; 13; 59; 58; 44; 46; 63].
(** sistream.cc:55-58: the first 15 bytes are searched. *)
Definition is_delim (s : ist) (c : Z) : bool := existsb (Z.eqb c) (firstn 15 (t_delims s)).
(** sistream.cc:15-53: the stream over [txt], followed in memory by [after]. *)
Definition iss_new (txt : list Z) (after : list (option Z)) : ist :=
  mkt (map Some txt ++ after) (Z.of_nat (length txt)) 0 0 0 default_delimiters 0 (mkf 0 0 [] [] []).

(** ** strtol (3), C11 7.22.1.4, with 64-bit long *)
Definition isspace (c : Z) : bool := ((9 <=? c) && (c <=? 13)) || (c =? 32).
Fixpoint skip_spaces (l : list (option Z)) (k : nat) : outcome (list (option Z) * nat) :=
  match l with
  | Some c :: t => if isspace c then skip_spaces t (S k) else Ok (l, k)
  | _ => UB
  end.
Definition digit_value (c : Z) : Z :=
  if (48 <=? c) && (c <=? 57) then c - 48
  else if (97 <=? c) && (c <=? 122) then c - 87
  else if (65 <=? c) && (c <=? 90) then c - 55
  else 99.
Fixpoint digits (base : Z) (l : list (option Z)) (acc : Z) (k : nat) : outcome (Z * nat) :=
  match l with
  | Some c :: t => if digit_value c <? base then digits base t (base * acc + digit_value c) (S k) else Ok (acc, k)
  | _ => UB
  end.
Definition clamp_long (x : Z) : Z := Z.max (- 2 ^ 63) (Z.min (2 ^ 63 - 1) x).
(** The value and the number of characters used. *)
Definition strtol (base : Z) (l : list (option Z)) : outcome (Z * nat) :=
  ' (l, k) <- skip_spaces l O ;;
  ' (neg, l, k) <- match l with
                   | Some 45 :: t => Ok (true, t, S k)
                   | Some 43 :: t => Ok (false, t, S k)
                   | Some _ :: _ => Ok (false, l, k)
                   | _ => UB
                   end ;;
  ' (base, l, k0) <- match l with
      | Some 48 :: Some x :: ((Some h :: _) as t) =>
          if ((x =? 120) || (x =? 88)) && ((base =? 0) || (base =? 16)) && (digit_value h <? 16)
          then Ok (16, t, (k + 2)%nat)
          else Ok (if base =? 0 then 8 else base, l, k)
      | Some 48 :: Some x :: _ => if (x =? 120) || (x =? 88) then UB else Ok (if base =? 0 then 8 else base, l, k)
      | Some 48 :: _ => UB
      | _ => Ok (if base =? 0 then 10 else base, l, k)
      end ;;
  ' (v, k1) <- digits base l 0 k0 ;;
  if (k1 =? k)%nat then Ok (0, O) else Ok (clamp_long (if neg then - v else v), k1).

Section Virtual.
  Variable uf : Z -> io ist Z.
  (** "remaining() || underflow()". *)
  Definition t_more : io ist bool :=
    fun s => if t_remaining s =? 0 then (r <~ uf 1 ;; ret (negb (r =? 0))) s else Ok (s, Val true).
  (** sistream.cc:60-71 [skip_delimiters]; [c] is the variable of the loop. *)
  Fixpoint skip_delimiters_loop (fuel : nat) (c : Z) : io ist Z :=
    match fuel with
    | O => fun _ => NoFuel
    | S fuel' =>
        fun s =>
          if is_delim s c then
            (b <~ t_more ;;
             if b then o <~ t_iread ;; skip_delimiters_loop fuel' (match o with Some c' => c' | None => c end)
             else _ <~ t_verify 1 ;; ret 0) s
          else Ok (s, Val c)
    end.
  Definition skip_delimiters (fuel : nat) : io ist Z := fun s => skip_delimiters_loop fuel (nth 0 (t_delims s) 0) s.

  (** sistream.cc:89-101 [read_number] for integers; the conversion to the type
      of the variable is [cast]. *)
  Fixpoint read_number_loop (fuel : nat) : io ist Z :=
    match fuel with
    | O => fun _ => NoFuel
    | S fuel' =>
        fun s =>
          match strtol (t_base s) (skipn (Z.to_nat (t_pos s)) (t_mem s)) with
          | Ok (v, k) =>
              let last := t_pos s + Z.of_nat k in
              (_ <~ t_skip (Z.of_nat k) ;;
               b <~ (fun s => if last =? t_size s then (r <~ uf 1 ;; ret (negb (r =? 0))) s else Ok (s, Val false)) ;;
               if b then read_number_loop fuel' else ret v) s
          | _ => UB
          end
    end.
  Definition read_number (cast : Z -> Z) (fuel : nat) : io ist Z :=
    c <~ skip_delimiters fuel ;;
    if c =? 0 then ret 0 else _ <~ t_ungetc ;; v <~ read_number_loop fuel ;; ret (cast v).

  (** sistream.cc:124-134 [iread (bool&)]; [v], [tv] as there. *)
  Fixpoint bool_loop (tv : list Z) (c : Z) : io ist unit :=
    match tv with
    | [] => undefined                                               (* past the array of 8 *)
    | x :: tv' =>
        if c =? x then
          b <~ t_more ;;
          if b then o <~ t_iread ;; bool_loop tv' (match o with Some c' => c' | None => c end) else ret tt
        else ret tt
    end.
  Definition tf (v : bool) : list Z := if v then [116; 114; 117; 101; 0; 0; 0; 0] else [102; 97; 108; 115; 101; 0; 0; 0].
  Definition iread_bool (fuel : nat) : io ist bool :=
    c <~ skip_delimiters fuel ;;
    let v := (c =? 116) || (c =? 49) in
    if c =? hd 0 (tf v) then _ <~ bool_loop (tf v) c ;; _ <~ t_ungetc ;; ret v else ret v.

  (** sistream.cc:136-169 [iread (string&)]: [q] the quote character or 0, [c]
      the last character read, [v] the string so far. *)
  Definition unescape (c : Z) : Z :=
    match c with
    | 116 => 9 | 110 => 10 | 114 => 13 | 98 => 8 | 69 => 27       (* t n r b E *)
    | _ => c
    end.
  Fixpoint word_loop (fuel : nat) (q c : Z) (v : list Z) : io ist (list Z) :=
    match fuel with
    | O => fun _ => NoFuel
    | S fuel' =>
        b <~ t_more ;;
        if b then
          o <~ t_iread ;;
          let prevc := c in
          let c := match o with Some c' => c' | None => c end in
          fun s =>
            if (q =? 0) && is_delim s c then Ok (s, Val v)
            else if prevc =? 92 then word_loop fuel' q (unescape c) (removelast v ++ [unescape c]) s
            else if c =? q then Ok (s, Val v)
            else word_loop fuel' q c (v ++ [c]) s
        else ret v
    end.
  Definition iread_string (fuel : nat) : io ist (list Z) :=
    c <~ skip_delimiters fuel ;;
    if c =? 0 then ret []
    else if (c =? 34) || (c =? 39) then word_loop fuel c c []
    else word_loop fuel 0 c [c].

  (** sistream.cc:181-194 [get (char*, n, delim)]: the bytes stored at p; one
      more than [n] is undefined. *)
  Fixpoint get_loop (fuel : nat) (n : Z) (delim : Z) (v : list Z) : io ist (list Z) :=
    match fuel with
    | O => fun _ => NoFuel
    | S fuel' =>
        if Z.of_nat (length v) <? n - 1 then
          b <~ t_more ;;
          if b then
            o <~ t_iread ;;
            let c := match o with Some c' => c' | None => 0 end in
            if c =? delim then _ <~ t_ungetc ;; ret v
            else _ <~ (fun s => Ok (tput_gcount (t_gcount s + 1) s, Val tt)) ;; get_loop fuel' n delim (v ++ [c])
          else ret v
        else ret v
    end.
  Definition get_chars (fuel : nat) (n delim : Z) : io ist (list Z) :=
    _ <~ (fun s => Ok (tput_gcount 0 s, Val tt)) ;;
    v <~ get_loop fuel n delim [] ;;
    if Z.of_nat (length v) + 1 <=? n then ret (v ++ [0]) else undefined.
  (** sistream.cc:171-178 [read]: [None] if the buffer is untouched. *)
  Definition t_read (fuel : nat) (n : Z) : io ist (option (list Z)) :=
    b <~ (fun s => if t_remaining s <? n then (r <~ uf n ;; ret (r <? n)) s else Ok (s, Val false)) ;;
    if b then v <~ get_chars fuel n 0 ;; ret (Some v)
    else _ <~ (fun s => Ok (tput_gcount n s, Val tt)) ;; t_raw n.
  (** sistream.h:58: char c = EOF; get (c); return c.  As an unsigned byte: 255 is EOF. *)
  Definition t_get (fuel : nat) : io ist Z :=
    o <~ t_read fuel 1 ;; ret (match o with Some (c :: _) => c | _ => 255 end).
  (** sistream.h:64. *)
  Definition t_peek (fuel : nat) : io ist Z := c <~ t_get fuel ;; _ <~ t_ungetc ;; ret c.

  (** ualgo.h:28-34 [find] in the view from position [i] on: how far. *)
  Fixpoint t_find (n : nat) (i : Z) (delim : Z) (s : ist) : outcome nat :=
    match n with
    | O => Ok O
    | S n' => c <- t_at i s ;; if c =? delim then Ok O else k <- t_find n' (i + 1) delim s ;; Ok (S k)
    end.
  (** sistream.cc:197-209 [get (string&, delim)]. *)
  Fixpoint get_string_loop (fuel : nat) (delim : Z) (v : list Z) : io ist (list Z) :=
    match fuel with
    | O => fun _ => NoFuel
    | S fuel' =>
        b <~ t_more ;;
        if b then
          fun s =>
            match t_at (t_pos s) s with
            | Ok c =>
                if c =? delim then Ok (s, Val v)
                else match (k <- t_find (Z.to_nat (t_size s - t_pos s)) (t_pos s) delim s ;;
                            l <- t_bytes (t_pos s) k s ;; Ok l) with
                     | Ok l =>
                         (_ <~ t_skip (Z.of_nat (length l)) ;;
                          _ <~ (fun s => Ok (tput_gcount (t_gcount s + Z.of_nat (length l)) s, Val tt)) ;;
                          get_string_loop fuel' delim (v ++ l)) s
                     | _ => UB
                     end
            | _ => UB
            end
        else ret v
    end.
  Definition get_string (fuel : nat) (delim : Z) : io ist (list Z) :=
    _ <~ (fun s => Ok (tput_gcount 0 s, Val tt)) ;; get_string_loop fuel delim [].
  (** The end of both getline functions: sistream.cc:215-218, 226-229. *)
  Definition take_delim (delim : Z) : io ist unit :=
    fun s =>
      if t_remaining s =? 0 then Ok (s, Val tt)
      else match t_at (t_pos s) s with
           | Ok c => if c =? delim
                     then (_ <~ t_skip 1 ;; fun s => Ok (tput_gcount (t_gcount s + 1) s, Val tt)) s
                     else Ok (s, Val tt)
           | _ => UB
           end.
  (** sistream.cc:212-220, 223-231. *)
  Definition getline (fuel : nat) (delim : Z) : io ist (list Z) :=
    v <~ get_string fuel delim ;; _ <~ take_delim delim ;; ret v.
  Definition getline_chars (fuel : nat) (n delim : Z) : io ist (list Z) :=
    v <~ get_chars fuel n delim ;; _ <~ take_delim delim ;; ret v.
  (** sistream.cc:234-240 [ignore]; [n] and [delim] as there, [k] what is left of
      [n] after "n--". *)
  Fixpoint ignore_loop (fuel : nat) (n delim : Z) : io ist Z :=
    match fuel with
    | O => fun _ => NoFuel
    | S fuel' =>
        let k := u64 (n - 1) in
        if n =? 0 then ret k
        else b <~ t_more ;;
             if b then c <~ t_get fuel' ;; if c =? delim then ret k else ignore_loop fuel' k delim
             else ret k
    end.
  Definition ignore (fuel : nat) (n delim : Z) : io ist unit :=
    _ <~ (fun s => Ok (tput_gcount n s, Val tt)) ;;
    k <~ ignore_loop fuel n delim ;;
    fun s => Ok (tput_gcount (t_gcount s - k) s, Val tt).
End Virtual.

(** mistream.cc:68-72 [istream::underflow]. *)
Definition iss_underflow (n : Z) : io ist Z := _ <~ t_verify n ;; fun s => Ok (s, Val (t_remaining s)).

(** ** ifstream: the buffer string is [t_mem] without its last byte, the
    terminator. *)
Definition b_size (s : ist) : Z := Z.of_nat (length (t_mem s)) - 1.
(** ofstream.cc:147-150: the loop reading into the buffer at [br], up to [upto]. *)
Fixpoint fill_loop (fuel : nat) (br upto : Z) : io ist Z :=
  match fuel with
  | O => fun _ => NoFuel
  | S fuel' =>
      fun s =>
        if (br <? upto) && f_good (t_file s) then
          match freadsome (Z.to_nat (b_size s - br)) (t_file s) with
          | Ok (f, Val d) =>
              let s := tput_file f s in
              let mem := firstn (Z.to_nat br) (t_mem s) ++ map Some d ++ skipn (Z.to_nat br + length d) (t_mem s) in
              let s := mkt mem (t_size s) (t_pos s) (t_state s) (t_gcount s) (t_delims s) (t_base s) (t_file s) in
              match d with
              | [] => Ok (s, Val br)
              | _ => fill_loop fuel' (br + Z.of_nat (length d)) upto s
              end
          | Ok (f, Thrown x) => Ok (tput_file f s, Thrown x)
          | UB => UB | Exn x => Exn x | NoFuel => NoFuel
          end
        else Ok (s, Val br)
  end.
(** memlink.h:86-93 [erase] of the first [k] of [n] bytes: they go to the end. *)
Definition erase_front (k n : nat) (m : list (option Z)) : list (option Z) :=
  firstn (n - k) (skipn k m) ++ firstn k m ++ skipn n m.
(** ustring.cc:50-56 [string::resize]: more bytes are undetermined, the
    terminator is written. *)
Definition buf_resize (n : nat) (m : list (option Z)) : list (option Z) :=
  firstn n (firstn (length m - 1) m) ++ repeat None (n - (length m - 1)) ++ [Some 0].
(** ofstream.cc:129-159.  The flush of cout for the standard input is not modelled. *)
Definition ifs_underflow (n : Z) : io ist Z :=
  _ <~ (fun s =>
          if Z.land (f_state (t_file s)) eofbit =? 0 then
            let free := b_size s - t_pos s in
            let needed := Z.max n (b_size s / 2) in
            match align (Z.max 0 (needed - free)) 8 with
            | Ok ought =>
                let k := Z.min (t_pos s) ought in
                let m := erase_front (Z.to_nat k) (Z.to_nat (b_size s)) (t_mem s) in
                let old := t_pos s - k in
                let s := mkt m (t_size s) (t_pos s) (t_state s) (t_gcount s) (t_delims s) (t_base s) (t_file s) in
                let s := if b_size s - old <? n then tput_view (buf_resize (Z.to_nat (old + needed)) (t_mem s)) 0 s else s in
                (br <~ fill_loop (S (length (f_sched (t_file s)))) old (old + n) ;;
                 fun s =>
                   let s := tput_state (f_state (t_file s)) s in
                   match upd (t_mem s) (Z.to_nat br) (Some 0) with
                   | Some m => t_seek old (tput_view m br s)
                   | None => UB
                   end) s
            | _ => UB
            end
          else Ok (s, Val tt)) ;;
  _ <~ (fun s => if Z.land (f_state (t_file s)) eofbit =? 0 then Ok (s, Val tt) else (_ <~ t_verify n ;; ret tt) s) ;;
  fun s => Ok (s, Val (t_remaining s)).
(** ofstream.cc:91-126: the constructor with a buffer of [sz] bytes
    (set_buffer_size; by default 4095). *)
Definition ifs_new (sz : nat) (f : file) : ist :=
  mkt (repeat None sz ++ [Some 0]) 0 0 (f_state f) 0 default_delimiters 0 f.


(** sistream.h:95-104. *)
Definition set_delimiters (d : list Z) (s : ist) : ist :=
  mkt (t_mem s) (t_size s) (t_pos s) (t_state s) (t_gcount s) (delimiters d) (t_base s) (t_file s).
(** sistream.h:35-46: the conversions from the long strtol returns. *)
Definition as_long (x : Z) : Z := x.
Definition as_int (x : Z) : Z := to_int x.
Definition as_uint (x : Z) : Z := u32 (to_int x).
Definition as_short (x : Z) : Z := let y := to_int x mod 2 ^ 16 in if y <? 2 ^ 15 then y else y - 2 ^ 16.
Definition as_ushort (x : Z) : Z := to_int x mod 2 ^ 16.
Definition as_ulong (x : Z) : Z := u64 x.
