(** Tables of src/flpr/Smash_Hash.hh, transcribed by scripts/gen_smash.py. *)
From Verif Require Import Base Tags.
Local Open Scope nat_scope.

Record smashed := mkSm { sm_name : str; tok1 : Z; tok2 : Z; splitpos : nat }.
(** :82-98 asso_values *)
Definition asso_values : list nat := [
  32; 32; 32; 32; 32; 32; 32; 32; 32; 32; 32; 32; 32; 32; 32; 32; 32; 32; 32; 32; 32; 32; 32; 32; 32; 32; 32; 32; 32; 32; 32; 32;
  32; 32; 32; 32; 32; 32; 32; 32; 32; 32; 32; 32; 32; 32; 32; 32; 32; 32; 32; 32; 32; 32; 32; 32; 32; 32; 32; 32; 32; 32; 32; 32;
  32; 32; 32; 32; 32; 32; 32; 32; 32; 32; 32; 32; 32; 32; 32; 32; 32; 32; 32; 32; 32; 32; 32; 32; 32; 32; 32; 32; 32; 32; 32; 32;
  32; 9; 16; 6; 0; 2; 2; 9; 32; 17; 32; 32; 32; 7; 32; 0; 10; 32; 8; 4; 0; 11; 32; 10; 32; 32; 32; 32; 32; 32; 32; 32;
  32; 32; 32; 32; 32; 32; 32; 32; 32; 32; 32; 32; 32; 32; 32; 32; 32; 32; 32; 32; 32; 32; 32; 32; 32; 32; 32; 32; 32; 32; 32; 32;
  32; 32; 32; 32; 32; 32; 32; 32; 32; 32; 32; 32; 32; 32; 32; 32; 32; 32; 32; 32; 32; 32; 32; 32; 32; 32; 32; 32; 32; 32; 32; 32;
  32; 32; 32; 32; 32; 32; 32; 32; 32; 32; 32; 32; 32; 32; 32; 32; 32; 32; 32; 32; 32; 32; 32; 32; 32; 32; 32; 32; 32; 32; 32; 32;
  32; 32; 32; 32; 32; 32; 32; 32; 32; 32; 32; 32; 32; 32; 32; 32; 32; 32; 32; 32; 32; 32; 32; 32; 32; 32; 32; 32; 32; 32; 32; 32].
(** :124-174 wordlist *)
Definition wordlist : list smashed := [
  mkSm (L "goto") KW_GO KW_TO 2;
  mkSm (L "enddo") KW_END KW_DO 3;
  mkSm (L "elseif") KW_ELSE KW_IF 4;
  mkSm (L "endtype") KW_END KW_TYPE 3;
  mkSm (L "endfile") KW_END KW_FILE 3;
  mkSm (L "selecttype") KW_SELECT KW_TYPE 6;
  mkSm (L "elsewhere") KW_ELSE KW_WHERE 4;
  mkSm (L "endteam") KW_END KW_TEAM 3;
  mkSm (L "endselect") KW_END KW_SELECT 3;
  mkSm (L "endenum") KW_END KW_ENUM 3;
  mkSm (L "endcritical") KW_END KW_CRITICAL 3;
  mkSm (L "selectcase") KW_SELECT KW_CASE 6;
  mkSm (L "endfunction") KW_END KW_FUNCTION 3;
  mkSm (L "endforall") KW_END KW_FORALL 3;
  mkSm (L "endassociate") KW_END KW_ASSOCIATE 3;
  mkSm (L "endif") KW_END KW_IF 3;
  mkSm (L "endsubmodule") KW_END KW_SUBMODULE 3;
  mkSm (L "blockdata") KW_BLOCK KW_DATA 5;
  mkSm (L "endsubroutine") KW_END KW_SUBROUTINE 3;
  mkSm (L "endwhere") KW_END KW_WHERE 3;
  mkSm (L "endmodule") KW_END KW_MODULE 3;
  mkSm (L "endprocedure") KW_END KW_PROCEDURE 3;
  mkSm (L "endprogram") KW_END KW_PROGRAM 3;
  mkSm (L "endblock") KW_END KW_BLOCK 3;
  mkSm (L "endinterface") KW_END KW_INTERFACE 3].
(** :182-257 the switch on key - 4: index into wordlist *)
Definition switch (k : nat) : option nat :=
  match k with
  | 0 => Some 0
  | 1 => Some 1
  | 4 => Some 2
  | 5 => Some 3
  | 7 => Some 4
  | 8 => Some 5
  | 9 => Some 6
  | 10 => Some 7
  | 11 => Some 8
  | 12 => Some 9
  | 13 => Some 10
  | 14 => Some 11
  | 15 => Some 12
  | 16 => Some 13
  | 17 => Some 14
  | 18 => Some 15
  | 19 => Some 16
  | 20 => Some 17
  | 21 => Some 18
  | 22 => Some 19
  | 23 => Some 20
  | 24 => Some 21
  | 25 => Some 22
  | 26 => Some 23
  | 27 => Some 24
  | _ => None
  end.
