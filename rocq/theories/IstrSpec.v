(** * IstrSpec: what reading text is compared with. *)
From Verif Require Import Base StreamModel FileModel FmtSpec.
From Coq Require Import ZArith.
Local Open Scope Z_scope.

(** The pieces of a text between the occurrences of [d]; one more than there
    are occurrences. *)
Fixpoint pieces (d : Z) (l : list Z) : list (list Z) :=
  match l with
  | [] => [[]]
  | c :: t => if c =? d then [] :: pieces d t
              else match pieces d t with p :: ps => (c :: p) :: ps | [] => [[c]] end
  end.
(** The maximal runs of characters that are not delimiters. *)
Fixpoint words (isd : Z -> bool) (l : list Z) : list (list Z) :=
  match l with
  | [] => []
  | c :: t =>
      if isd c then words isd t
      else match t with
           | [] => [[c]]
           | c2 :: _ => if isd c2 then [c] :: words isd t
                        else match words isd t with w :: ws => (c :: w) :: ws | [] => [[c]] end
           end
  end.
(** Repeating a read and collecting the results. *)
Fixpoint times {S A} (k : nat) (m : io S A) : io S (list A) :=
  match k with
  | O => ret []
  | S k' => a <~ m ;; r <~ times k' m ;; ret (a :: r)
  end.

(** A schedule of read(2) results without errors: data may come in any portions
    and calls may be interrupted, and it lasts until the end of the file. *)
Fixpoint answers (l : list sysres) : nat :=
  match l with [] => O | SOk _ :: t => S (answers t) | _ :: t => answers t end.
Definition no_errors (l : list sysres) : Prop := Forall (fun r => match r with SOk _ | SIntr => True | _ => False end) l.
Definition readable (f : file) : Prop :=
  f_state f = 0 /\ f_exc f = 0 /\ no_errors (f_sched f) /\ (length (f_in f) < answers (f_sched f))%nat.

(** [t] is the decimal notation of the integer [n]. *)
Definition integer_text (t : list Z) (n : Z) : Prop :=
  exists ds, decimal ds (Z.abs n) /\ t = (if n <? 0 then 45 :: ds else ds).
(** Texts separated by [c]. *)
Fixpoint joined (c : Z) (ts : list (list Z)) : list Z :=
  match ts with
  | [] => []
  | [t] => t
  | t :: ts => t ++ c :: joined c ts
  end.

(** The characters of a quoted string: themselves, or after a backslash. *)
Inductive qchar : Type := Lit (c : Z) | Esc (e : Z).
Definition q_written (x : qchar) : list Z := match x with Lit c => [c] | Esc e => [92; e] end.
Definition q_meaning (x : qchar) : Z :=
  match x with
  | Lit c => c
  | Esc e => if e =? 116 then 9 else if e =? 110 then 10 else if e =? 114 then 13       (* t n r *)
             else if e =? 98 then 8 else if e =? 69 then 27 else e                       (* b E *)
  end.
(** In quotes [q], the quote and the backslash are not written as themselves. *)
Definition q_valid (q : Z) (x : qchar) : Prop := match x with Lit c => c <> q /\ c <> 92 | Esc e => True end.

(** In a word without quotes, neither a character nor one after a backslash is
    one of the delimiters [p]. *)
Definition w_valid (p : Z -> bool) (x : qchar) : Prop := match x with Lit c => p c = false /\ c <> 92 | Esc e => p e = false end.

(** What is read as a string: a word that does not begin with a quote, or any
    characters in quotes; how it is written and what it means. *)
Inductive token : Type := TWord (x : qchar) (xs : list qchar) | TQuoted (q : Z) (xs : list qchar).
Definition t_written (t : token) : list Z :=
  match t with TWord x xs => concat (map q_written (x :: xs)) | TQuoted q xs => q :: concat (map q_written xs) ++ [q] end.
Definition t_meaning (t : token) : list Z :=
  match t with TWord x xs => map q_meaning (x :: xs) | TQuoted _ xs => map q_meaning xs end.
Definition t_valid (p : Z -> bool) (t : token) : Prop :=
  match t with
  | TWord x xs => Forall (w_valid p) (x :: xs) /\ ~ In (Esc 92) (x :: xs) /\ x <> Lit 34 /\ x <> Lit 39
  | TQuoted q xs => (q = 34 \/ q = 39) /\ p q = false /\ Forall (q_valid q) xs /\ ~ In (Esc 92) xs
  end.
(** A text of tokens, each followed by delimiters; they may be missing at the
    end and after a quote. *)
Fixpoint sentence (l : list (token * list Z)) : list Z :=
  match l with [] => [] | (t, d) :: l' => t_written t ++ d ++ sentence l' end.
Fixpoint separated (p : Z -> bool) (l : list (token * list Z)) : Prop :=
  match l with
  | [] => True
  | (t, d) :: l' => Forall (fun c => p c = true) d /\
                    match t with TWord _ _ => d = [] -> l' = [] | TQuoted _ _ => True end /\ separated p l'
  end.

(** The part of a text before [d], and the rest. *)
Fixpoint until (d : Z) (l : list Z) : list Z * list Z :=
  match l with
  | [] => ([], [])
  | c :: t => if c =? d then ([], l) else let '(a, b) := until d t in (c :: a, b)
  end.
(** A text without its leading delimiters, and its first word and the rest. *)
Fixpoint skipd (p : Z -> bool) (l : list Z) : list Z :=
  match l with [] => [] | c :: t => if p c then skipd p t else l end.
Fixpoint wordof (p : Z -> bool) (l : list Z) : list Z * list Z :=
  match l with [] => ([], []) | c :: t => if p c then ([], l) else let '(a, b) := wordof p t in (c :: a, b) end.

(** A text in which a word is just its characters: no quote, no backslash. *)
Definition plain (c : Z) : Prop := c <> 34 /\ c <> 39 /\ c <> 92.

(** Requests: a line, a word, at most [n-1] characters up to a delimiter (stored
    with a terminating 0); what they get from a text, and what is left of it. *)
Inductive treq : Type := RLine (d : Z) | RWord | RGet (n d : Z).
Definition reasonable (r : treq) : Prop := match r with RGet n _ => 1 <= n | _ => True end.
Definition answer (isd : Z -> bool) (r : treq) (txt : list Z) : list Z * list Z :=
  match r with
  | RLine d => let '(a, b) := until d txt in (a, tl b)
  | RWord => let '(a, b) := wordof isd (skipd isd txt) in (a, tl b)
  | RGet n d => let a := firstn (Z.to_nat (n - 1)) (fst (until d txt)) in (a ++ [0], skipn (length a) txt)
  end.
Fixpoint answers_to (isd : Z -> bool) (ops : list treq) (txt : list Z) : list (list Z) :=
  match ops with
  | [] => []
  | r :: ops' => let '(a, rest) := answer isd r txt in a :: answers_to isd ops' rest
  end.

(** ignore (n, d) takes at most [n] characters and stops after [d]. *)
Definition taken (n : Z) (d : Z) (txt : list Z) : nat :=
  let w := firstn (Z.to_nat n) txt in let k := length (fst (until d w)) in if (k <? length w)%nat then S k else k.
