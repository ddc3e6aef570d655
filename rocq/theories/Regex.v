(** Regular expressions, as far as src/flpr/scan_fort.l uses them, with the
    matcher a flex scanner implements: the longest prefix of the input. *)
From Verif Require Import Base.

Inductive re : Type :=
| Emp                               (* no text *)
| Eps                               (* the empty text *)
| Cls (p : ascii -> bool)           (* one character of a class *)
| Cat (a b : re)
| Or (a b : re)
| Star (a : re).

(** One text of the language of an expression. *)
Inductive lang : re -> str -> Prop :=
| L_eps : lang Eps []
| L_cls : forall p c, p c = true -> lang (Cls p) [c]
| L_cat : forall a b u v, lang a u -> lang b v -> lang (Cat a b) (u ++ v)
| L_orl : forall a b u, lang a u -> lang (Or a b) u
| L_orr : forall a b u, lang b u -> lang (Or a b) u
| L_nil : forall a, lang (Star a) []
| L_more : forall a u v, lang a u -> lang (Star a) v -> lang (Star a) (u ++ v).

Fixpoint nullable (r : re) : bool :=
  match r with
  | Emp => false | Eps => true | Cls _ => false
  | Cat a b => nullable a && nullable b
  | Or a b => nullable a || nullable b
  | Star _ => true
  end.

Definition cat (a b : re) : re :=
  match a with Emp => Emp | Eps => b | _ => Cat a b end.
Definition alt (a b : re) : re :=
  match a, b with Emp, _ => b | _, Emp => a | _, _ => Or a b end.

(** What must follow [c]. *)
Fixpoint deriv (c : ascii) (r : re) : re :=
  match r with
  | Emp => Emp
  | Eps => Emp
  | Cls p => if p c then Eps else Emp
  | Cat a b => if nullable a then alt (cat (deriv c a) b) (deriv c b) else cat (deriv c a) b
  | Or a b => alt (deriv c a) (deriv c b)
  | Star a => cat (deriv c a) (Star a)
  end.

(** The length of the longest prefix of [s] in the language; [n] characters
    are already consumed, [best] is the longest match so far. *)
Fixpoint longest_from (r : re) (s : str) (n : nat) (best : option nat) : option nat :=
  let best := if nullable r then Some n else best in
  match s with
  | [] => best
  | c :: s' => match deriv c r with
               | Emp => best
               | r' => longest_from r' s' (S n) best
               end
  end.
Definition longest (r : re) (s : str) : option nat := longest_from r s 0 None.

(** Derived forms. *)
Definition Opt (a : re) : re := Or Eps a.
Definition Plus (a : re) : re := Cat a (Star a).
Fixpoint Lit (s : str) : re :=
  match s with [] => Eps | c :: r => Cat (Cls (ceq c)) (Lit r) end.
