(** Model of Line_Accum (src/flpr/Line_Accum.hh, .cc).  Simplification: int is
    Z (no overflow). *)
From Verif Require Import Base.

(** Line_Accum.hh:58-64 *)
Record Line_Accum := mkLA {
  la_accum : str;
  la_offset : list Z;                (* lli_to_accum_offset_ *)
  la_line : list Z;                  (* lli_to_file_line_num_ *)
  la_col : list Z }.                 (* lli_to_file_column_num_ *)
Definition la_empty : Line_Accum := mkLA [] [] [] [].

(** Line_Accum.cc:21-38 add_line *)
Definition add_line (la : Line_Accum) (lineno : Z) (nleft : Z) (col : Z) (main : str) (nright : Z)
  : Line_Accum :=
  let acc := if negb (is_empty (la_offset la)) && (0 <? nleft)%Z
             then la_accum la ++ [c_sp] else la_accum la in
  let acc2 := acc ++ main in
  mkLA (if (0 <? nright)%Z then acc2 ++ [c_sp] else acc2)
       (la_offset la ++ [zlen acc]) (la_line la ++ [lineno]) (la_col la ++ [col]).

(** Line_Accum.cc:45-49 and 70-74: the loop that advances lli; [offs] are the
    offsets after index [lli]. *)
Fixpoint find_lli (offs : list Z) (lli : nat) (o : Z) : nat :=
  match offs with
  | x :: r => if (x <=? o)%Z then find_lli r (S lli) o else lli
  | [] => lli
  end.

(** Line_Accum.cc:64-92 linecolno: [Ok None] = returned false;
    [Ok (Some (lineno, colno, txt_lineno, txt_colno))] = returned true. *)
Definition linecolno (la : Line_Accum) (o : Z) : res (option (Z * Z * Z * Z)) :=
  match la_offset la with
  | [] => Ok None
  | _ :: r =>
      let lli := find_lli r 0 o in
      _ <- assert_ (lli <? length (la_offset la)) ;;
      match nth_error (la_offset la) lli, nth_error (la_line la) lli, nth_error (la_col la) lli with
      | Some off, Some ln, Some col =>
          _ <- assert_ (off <=? o)%Z ;;
          let d := (o - off)%Z in
          let colno := (col + d)%Z in
          _ <- assert_ (0 <? colno)%Z ;;
          _ <- assert_ (lli <? length (la_line la)) ;;
          _ <- assert_ (0 <=? d)%Z ;;
          Ok (Some (ln, colno, Z.of_nat lli, d))
      | _, _, _ => UB
      end
  end.

(** Line_Accum.cc:40-62 linecolno with two results. *)
Definition linecolno2 (la : Line_Accum) (o : Z) : res (option (Z * Z)) :=
  match la_offset la with
  | [] => Ok None
  | _ :: r =>
      let lli := find_lli r 0 o in
      _ <- assert_ (lli <? length (la_offset la)) ;;
      match nth_error (la_offset la) lli, nth_error (la_line la) lli, nth_error (la_col la) lli with
      | Some off, Some ln, Some col =>
          _ <- assert_ (off <=? o)%Z ;;
          let colno := (col + (o - off))%Z in
          _ <- assert_ (0 <? colno)%Z ;;
          Ok (Some (ln, colno))
      | _, _, _ => UB
      end
  end.
