(** Common vocabulary of the model: outcomes, bytes, and the std::string
    operations used by FLPR.  Nothing here is specific to one source file. *)
From Coq Require Export Ascii String ZArith Arith Lia Bool.
From Coq Require Export List.
Export ListNotations.
Set Implicit Arguments.

(** Outcome of a C++ call.  [Throw]: a C++ exception leaves the function.
    [UB]: undefined behaviour or a failed assert (distinct from any value). *)
Inductive res (A : Type) : Type :=
| Ok (a : A)
| Throw
| UB.
Arguments Ok {A} _.
Arguments Throw {A}.
Arguments UB {A}.

Definition bind {A B} (x : res A) (f : A -> res B) : res B :=
  match x with
  | Ok a => f a
  | Throw => Throw
  | UB => UB
  end.

Declare Scope res_scope.
Delimit Scope res_scope with res.
Notation "x <- e ;; k" := (bind e (fun x => k))
  (at level 100, e at next level, right associativity) : res_scope.
Notation "' p <- e ;; k" := (bind e (fun p => k))
  (at level 100, p pattern, e at next level, right associativity) : res_scope.
Open Scope res_scope.

(** assert(b): a failed assertion is [UB]. *)
Definition assert_ (b : bool) : res unit := if b then Ok tt else UB.

(** A std::string is the list of its bytes. *)
Definition str := list ascii.

(** String literals. *)
Definition L (s : string) : str := list_ascii_of_string s.

Definition code (c : ascii) : nat := nat_of_ascii c.
Definition chr (n : nat) : ascii := ascii_of_nat n.

Definition ceq (a b : ascii) : bool := Ascii.eqb a b.

Definition c_nul : ascii := "000"%char.
Definition c_tab : ascii := "009"%char.
Definition c_cr : ascii := "013"%char.
Definition c_sp : ascii := " "%char.
Definition c_bang : ascii := "!"%char.
Definition c_amp : ascii := "&"%char.
Definition c_hash : ascii := "#"%char.
Definition c_star : ascii := "*"%char.
Definition c_bslash : ascii := "\"%char.
Definition c_squote : ascii := "'"%char.
Definition c_dquote : ascii := "034"%char.

Definition mem (c : ascii) (set : str) : bool := existsb (ceq c) set.

(** The character sets " \t" and " \t\r" used with find_*_of. *)
Definition set_st : str := [c_sp; c_tab].
Definition set_str : str := [c_sp; c_tab; c_cr].

(** <cctype> functions.  On a platform where [char] is signed a byte >= 128 is
    a negative argument, which is undefined behaviour (C17 7.4p1). *)
Definition ctype_ok (c : ascii) : bool := code c <? 128.
Definition is_space_b (c : ascii) : bool :=
  ((9 <=? code c) && (code c <=? 13)) || (code c =? 32).
Definition is_digit_b (c : ascii) : bool := (48 <=? code c) && (code c <=? 57).
Definition upper_b (c : ascii) : ascii :=
  if (97 <=? code c) && (code c <=? 122) then chr (code c - 32) else c.
Definition lower_b (c : ascii) : ascii :=
  if (65 <=? code c) && (code c <=? 90) then chr (code c + 32) else c.

Definition c_isspace (c : ascii) : res bool :=
  if ctype_ok c then Ok (is_space_b c) else UB.
Definition c_isdigit (c : ascii) : res bool :=
  if ctype_ok c then Ok (is_digit_b c) else UB.
Definition c_toupper (c : ascii) : res ascii :=
  if ctype_ok c then Ok (upper_b c) else UB.
Definition c_tolower (c : ascii) : res ascii :=
  if ctype_ok c then Ok (lower_b c) else UB.

(** s[i]: the terminating NUL is readable, anything past it is UB. *)
Definition at_ (s : str) (i : nat) : res ascii :=
  match nth_error s i with
  | Some c => Ok c
  | None => if i =? length s then Ok c_nul else UB
  end.

(** Index of the first element satisfying [p], counted from [i]. *)
Fixpoint find_from (p : ascii -> bool) (s : str) (i : nat) : option nat :=
  match s with
  | [] => None
  | c :: s' => if p c then Some i else find_from p s' (S i)
  end.

(** s.find(c), s.find_first_of(set), s.find_first_not_of(set[, pos]);
    [None] is std::string::npos. *)
Definition find_char (c : ascii) (s : str) : option nat := find_from (ceq c) s 0.
Definition find_first_of (set s : str) : option nat :=
  find_from (fun c => mem c set) s 0.
Definition find_first_not_of (set s : str) : option nat :=
  find_from (fun c => negb (mem c set)) s 0.
Definition find_first_not_of_from (set s : str) (pos : nat) : option nat :=
  find_from (fun c => negb (mem c set)) (skipn pos s) pos.

(** s.find_last_not_of(set) *)
Fixpoint find_last_not_of (set s : str) : option nat :=
  match s with
  | [] => None
  | c :: s' =>
      match find_last_not_of set s' with
      | Some i => Some (S i)
      | None => if mem c set then None else Some 0
      end
  end.

(** s.substr(pos), s.substr(pos, n): out_of_range if pos > size(). *)
Definition substr (s : str) (pos : nat) : res str :=
  if pos <=? length s then Ok (skipn pos s) else Throw.
Definition substr_n (s : str) (pos n : nat) : res str :=
  if pos <=? length s then Ok (firstn n (skipn pos s)) else Throw.

(** n copies of a blank *)
Definition spaces (n : nat) : str := repeat c_sp n.

(** s.insert(pos, t): out_of_range if pos > size(). *)
Definition insert_at (s : str) (pos : nat) (t : str) : res str :=
  if pos <=? length s then Ok (firstn pos s ++ t ++ skipn pos s) else Throw.

(** s.erase(pos, n): out_of_range if pos > size(). *)
Definition erase_n (s : str) (pos n : nat) : res str :=
  if pos <=? length s then Ok (firstn pos s ++ skipn (pos + n) s) else Throw.
(** s.erase(pos) *)
Definition erase_from (s : str) (pos : nat) : res str :=
  if pos <=? length s then Ok (firstn pos s) else Throw.

(** A count argument of type size_t obtained from an int: a negative value
    becomes huge; building a string of that size throws length_error. *)
Definition blanks_z (n : Z) : res str :=
  if (n <? 0)%Z then Throw else Ok (spaces (Z.to_nat n)).

Definition is_empty {A} (s : list A) : bool :=
  match s with [] => true | _ => false end.

Definition is_none {A} (o : option A) : bool :=
  match o with None => true | _ => false end.

Definition zlen {A} (s : list A) : Z := Z.of_nat (length s).

(** Decimal representation, std::to_string on a non-negative int.  The fuel
    is the (over-)estimate of the number of digits. *)
Definition digit_of (n : nat) : ascii := chr (48 + n).
Fixpoint dec_loop (fuel : nat) (n : N) (acc : str) : str :=
  match fuel with
  | O => acc
  | S f =>
      let d := digit_of (N.to_nat (N.modulo n 10)) in
      let q := N.div n 10 in
      if (q =? 0)%N then d :: acc else dec_loop f q (d :: acc)
  end.
Definition to_dec (n : N) : str := dec_loop (S (N.size_nat n)) n [].

(** std::stoi restricted to what it does on blanks* [+-]? digit+ anything:
    [Throw] (invalid_argument) when there is no digit, [Throw] (out_of_range)
    above INT_MAX. *)
Fixpoint digits_val (s : str) (acc : N) : N :=
  match s with
  | [] => acc
  | c :: s' => if is_digit_b c then digits_val s' (10 * acc + N.of_nat (code c - 48))%N
               else acc
  end.
Fixpoint skip_while (p : ascii -> bool) (s : str) : str :=
  match s with
  | [] => []
  | c :: s' => if p c then skip_while p s' else s
  end.
Definition int_max : N := 2147483647%N.
Definition stoi_unsigned (s : str) : res Z :=
  match s with
  | c :: _ => if is_digit_b c
              then let v := digits_val s 0 in
                   if (v <=? int_max)%N then Ok (Z.of_N v) else Throw
              else Throw
  | [] => Throw
  end.
Definition stoi (s : str) : res Z :=
  match skip_while is_space_b s with
  | c :: s' => if ceq c "+"%char then stoi_unsigned s'
               else if ceq c "-"%char then
                      (match stoi_unsigned s' with
                       | Ok z => Ok (- z)%Z | Throw => Throw | UB => UB end)
               else stoi_unsigned (c :: s')
  | [] => Throw
  end.

Global Arguments ceq : simpl never.
Global Arguments mem : simpl never.
Global Arguments is_space_b : simpl never.
Global Arguments is_digit_b : simpl never.
Global Arguments ctype_ok : simpl never.
Global Arguments upper_b : simpl never.
Global Arguments lower_b : simpl never.
