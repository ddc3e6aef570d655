(** Model of Syntax_Tags (src/flpr/Syntax_Tags.hh, .cc): labels, types and the
    client extension registry.  The static vector extensions_ is a state. *)
From Verif Require Import Base Tags.
Local Open Scope Z_scope.

(** Syntax_Tags.hh:47-51 *)
Record Ext_Record := mkExt { ext_label : str; ext_type : Z }.
Definition ext_empty (e : Ext_Record) : bool := ext_type e =? -1.
Definition ext_default : Ext_Record := mkExt [] (-1).
Definition registry := list Ext_Record.

(** Syntax_Tags.hh:56-64 get_ext_idx_ *)
Definition get_ext_idx (reg : registry) (tag : Z) : Z :=
  if tag <? CLIENT_EXTENSION then -2
  else let i := tag - CLIENT_EXTENSION in
       if i >=? zlen reg then -1
       else match nth_error reg (Z.to_nat i) with
            | Some e => if ext_empty e then -1 else i
            | None => -1
            end.

(** strings_[tag], types_[tag]: outside of the array is undefined. *)
Definition table_at (tag : Z) : res (str * Z) :=
  if tag <? 0 then UB
  else match nth_error tag_table (Z.to_nat tag) with Some p => Ok p | None => UB end.

(** std::to_string on an int *)
Definition to_dec_z (n : Z) : str :=
  if n <? 0 then L "-" ++ to_dec (Z.to_N (- n)) else to_dec (Z.to_N n).

(** Syntax_Tags.cc:7-17 label *)
Definition tag_label (reg : registry) (tag : Z) : res str :=
  let i := get_ext_idx reg tag in
  if i =? -2 then (p <- table_at tag ;; Ok (fst p))
  else if i =? -1 then Ok (L "<client-extension+" ++ to_dec_z (tag - CLIENT_EXTENSION) ++ L ">")
  else match nth_error reg (Z.to_nat i) with Some e => Ok (ext_label e) | None => UB end.

(** Syntax_Tags.cc:19-26 type *)
Definition tag_type (reg : registry) (tag : Z) : res Z :=
  let i := get_ext_idx reg tag in
  if i =? -2 then (p <- table_at tag ;; Ok (snd p))
  else if i =? -1 then Ok 4
  else match nth_error reg (Z.to_nat i) with Some e => Ok (ext_type e) | None => UB end.

(** Syntax_Tags.hh:40 is_keyword *)
Definition is_keyword (reg : registry) (tag : Z) : res bool :=
  t <- tag_type reg tag ;; Ok (t =? 4).

(** Syntax_Tags.hh:31-33 is_name: reads types_ directly *)
Definition is_name_tag (tag : Z) : res bool :=
  if tag =? TK_NAME then Ok true
  else p <- table_at tag ;; Ok (snd p =? 4).

(** Syntax_Tags.cc:28-40 register_ext (resize, then fill the slot) *)
Definition resize_to (reg : registry) (n : nat) : registry :=
  reg ++ repeat ext_default (n - length reg).
Definition set_nth {A} (l : list A) (i : nat) (x : A) : list A :=
  firstn i l ++ x :: skipn (S i) l.
Definition register_ext (reg : registry) (tag : Z) (label : str) (type : Z) : res registry :=
  _ <- assert_ (CLIENT_EXTENSION <=? tag) ;;
  let i := Z.to_nat (tag - CLIENT_EXTENSION) in
  let reg' := if (length reg <=? i)%nat then resize_to reg (S i) else reg in
  match nth_error reg' i with
  | None => UB
  | Some e =>
      _ <- assert_ (ext_empty e) ;;
      Ok (set_nth reg' i (mkExt label type))
  end.
