(** Smash_Hash (src/flpr/Smash_Hash.hh) and Logical_Line::unsmash. *)
From Verif Require Import Base Tags SyntaxTags Token SmashTab.
Local Open Scope nat_scope.

(** asso_values[static_cast<unsigned char>(c)] *)
Definition asso (c : ascii) : nat := nth (code c) asso_values 0.
(** :81-112 hash; [str] is NUL-terminated of length [len] (the terminator is
    readable, anything behind it is undefined). *)
Definition hash (s : str) (len : nat) : res nat :=
  let h := len in
  h <- (match h with
        | 4 | 5 | 6 => Ok h
        | _ => c <- at_ s 6 ;; Ok (h + asso c)
        end) ;;
  c <- at_ s 3 ;; Ok (h + asso c).

(** the C string at the beginning of the buffer *)
Fixpoint c_str (s : str) : str :=
  match s with [] => [] | c :: r => if ceq c c_nul then [] else c :: c_str r end.
Fixpoint seqb (a b : str) : bool :=
  match a, b with [], [] => true | x :: a', y :: b' => ceq x y && seqb a' b' | _, _ => false end.

(** :114-266 in_word_set *)
Definition in_word_set (s : str) : res (option smashed) :=
  let len := length s in
  if (len <=? 13) && (4 <=? len) then
    key <- hash s len ;;
    if (key <=? 31) && (4 <=? key) then
      match switch (key - 4) with
      | None => Ok None
      | Some i => match nth_error wordlist i with
                  | None => UB
                  | Some w => if seqb (c_str s) (sm_name w) then Ok (Some w) else Ok None
                  end
      end
    else Ok None
  else Ok None.

(** Logical_Line.cc:831-857 unsmash, on the fragments list; [erase(splitpos)]
    throws if the text is shorter. *)
Definition set_pos_ (x : Token) (p : Z) : Token :=
  mkTok (tok x) (tk_line x) p (tk_text x) (mt_bl x) (mt_bc x) (mt_el x) (mt_ec x) (tk_pre x) (tk_post x).
Definition set_pre (x : Token) (v : option Z) : Token :=
  mkTok (tok x) (tk_line x) (tk_pos x) (tk_text x) (mt_bl x) (mt_bc x) (mt_el x) (mt_ec x) v (tk_post x).
Definition set_post (x : Token) (v : option Z) : Token :=
  mkTok (tok x) (tk_line x) (tk_pos x) (tk_text x) (mt_bl x) (mt_bc x) (mt_el x) (mt_ec x) (tk_pre x) v.
Definition unsmash (fr : list Token) : res (list Token) :=
  match rev fr with
  | [] => Ok fr
  | x :: before =>
      if negb (tok x =? TK_NAME)%Z then Ok fr else
      o <- in_word_set (map lower_b (tk_text x)) ;;
      match o with
      | None => Ok fr
      | Some w =>
          t1 <- erase_from (tk_text x) (splitpos w) ;;
          t2 <- erase_n (tk_text x) 0 (splitpos w) ;;
          let new1 := set_post (set_text (set_tok x (tok1 w)) t1) (Some 0%Z) in
          let new2 := set_pre (set_pos_ (set_text (set_tok x (tok2 w)) t2) (tk_pos x + Z.of_nat (splitpos w))) (Some 0%Z) in
          Ok (rev before ++ [new1; new2])
      end
  end.
