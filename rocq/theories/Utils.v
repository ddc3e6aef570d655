(** Model of src/flpr/utils.hh, utils.cc and File_Info.cc. *)
From Verif Require Import Base FileLine.
Local Open Scope nat_scope.

(** std::isspace etc. on a plain (signed) char: see [c_isspace] in Base. *)
Fixpoint map_res {A B} (f : A -> res B) (l : list A) : res (list B) :=
  match l with [] => Ok [] | x :: r => y <- f x ;; r' <- map_res f r ;; Ok (y :: r') end.

(** utils.cc:21-24 tolower, :27-30 toupper *)
Definition tolower_s (s : str) : res str := map_res c_tolower s.
Definition toupper_s (s : str) : res str := map_res c_toupper s.

(** std::find_if_not(s.begin(), s.end(), isspace), as the rest of the string *)
Fixpoint skip_ws (s : str) : res str :=
  match s with
  | [] => Ok []
  | c :: r => b <- c_isspace c ;; if b then skip_ws r else Ok s
  end.
(** utils.hh:35-46 trim: the second search runs backwards, down to wsfront *)
Definition trim (s : str) : res str :=
  t <- skip_ws s ;; u <- skip_ws (rev t) ;; Ok (rev u).
(** utils.hh:49-54 trim_back_copy, :57-63 trim_back, :66-71 last_non_blank_char *)
Definition trim_back_copy (s : str) : str :=
  match find_last_not_of set_st s with None => [] | Some b => firstn (b + 1) s end.
Definition trim_back (s : str) : res str :=
  match find_last_not_of set_st s with None => Ok [] | Some b => erase_from s (b + 1) end.
Definition last_non_blank_char (s : str) : res ascii :=
  match find_last_not_of set_st s with None => Ok c_nul | Some b => at_ s b end.

(** utils.cc:33-43 simple_tokenize.  Iterators are indices; *sp needs
    sp < size().  The last sp++ (:42) moves the iterator behind end(), where it
    is never dereferenced. *)
Fixpoint scan_tok (fuel : nat) (s : str) (delim : ascii) (sp : nat) : res nat :=
  match fuel with
  | O => UB
  | S f => if sp =? length s then Ok sp
           else match nth_error s sp with
                | None => UB
                | Some c => if ceq delim c then Ok sp else scan_tok f s delim (S sp)
                end
  end.
Fixpoint tok_loop (fuel : nat) (s : str) (delim : ascii) (sp : nat) (t : list str) : res (list str) :=
  match fuel with
  | O => UB
  | S f =>
      let tbeg := sp in
      sp <- scan_tok (S (length s)) s delim sp ;;
      let t := if negb (tbeg =? sp) then t ++ [firstn (sp - tbeg) (skipn tbeg s)] else t in
      if negb (length s =? sp) then tok_loop f s delim (S sp) t else Ok t
  end.
Definition simple_tokenize (s : str) (t : list str) (delim : ascii) : res (list str) :=
  tok_loop (S (length s)) s delim 0 t.

(** ** File_Info *)
Inductive File_Type := FT_UNKNOWN | FT_FIXED | FT_FREE.
(** s.find_last_of(c) *)
Fixpoint find_last (c : ascii) (s : str) : option nat :=
  match s with
  | [] => None
  | x :: r => match find_last c r with Some i => Some (S i) | None => if ceq c x then Some 0 else None end
  end.
Fixpoint str_eqb (a b : str) : bool :=
  match a, b with [], [] => true | x :: a', y :: b' => ceq x y && str_eqb a' b' | _, _ => false end.
(** File_Info.cc:42-64 file_type_from_extension (messages to cerr not modelled) *)
Definition file_type_from_extension (name : str) : res File_Type :=
  match find_last "."%char name with
  | None => Ok FT_UNKNOWN
  | Some p =>
      ext <- substr name (p + 1) ;;
      if str_eqb ext (L "f") || str_eqb ext (L "F") || str_eqb ext (L "F90") then Ok FT_FIXED
      else if str_eqb ext (L "f90") then Ok FT_FREE else Ok FT_UNKNOWN
  end.
(** File_Info.cc:19-24: the constructor *)
Definition file_info (name : str) (ft : File_Type) : res File_Type :=
  match ft with FT_UNKNOWN => file_type_from_extension name | _ => Ok ft end.
