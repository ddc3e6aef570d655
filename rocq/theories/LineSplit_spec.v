(** What splitting a logical line must keep. *)
From Verif Require Import Base Tags FileLine Token LogicalLine LineEdit_spec.
Local Open Scope nat_scope.

(** The same token, wherever it is recorded to stand. *)
Definition same_token (x y : Token) : Prop :=
  tok x = tok y /\ tk_text x = tk_text y /\ tk_line x = tk_line y /\ tk_pos x = tk_pos y /\
  tk_pre x = tk_pre y /\ tk_post x = tk_post y.
(** A token carried from layout [l1] to layout [l2]: there it stands at the same
    text. *)
Definition carried (l1 l2 : list File_Line) (x x' : Token) (u u' : spot * spot) : Prop :=
  same_token x' x /\ between l2 (fst u') (snd u') = between l1 (fst u) (snd u) /\
  (end_right x (snd u) -> end_right x' (snd u')).
Inductive carried_all (l1 l2 : list File_Line)
  : list Token -> list Token -> list (spot * spot) -> list (spot * spot) -> Prop :=
| carried_nil : carried_all l1 l2 [] [] [] []
| carried_cons : forall x x' u u' l l' sp sp', carried l1 l2 x x' u u' -> carried_all l1 l2 l l' sp sp' ->
    carried_all l1 l2 (x :: l) (x' :: l') (u :: sp) (u' :: sp').
(** A trailing part that File_Line::set_leading_spaces can adjust. *)
Definition adjustable (f : File_Line) : Prop :=
  right_txt f = [] \/ (exists r, right_txt f = "!"%char :: r) \/ ~ In "!"%char (right_txt f) \/
  2 <= length (right_space f) /\ exists r, right_txt f = "&"%char :: " "%char :: "!"%char :: r.
(** [l2] is [l1] up to column [e] of line [s], the last line no longer continued. *)
Definition first_part (l1 l2 : list File_Line) (s e : nat) : Prop :=
  exists p f q g, l1 = p ++ f :: q /\ l2 = p ++ [g] /\ length p = s /\
    main_txt g = firstn e (main_txt f) /\ left_txt g = left_txt f /\ left_space g = left_space f /\
    linenum g = linenum f /\ is_continued g = false.
(** [l2] is [l1] from column [c] of line [s], the first line starting without a
    label or '&' in column [indent]. *)
Definition second_part (l1 l2 : list File_Line) (s c : nat) (indent : Z) : Prop :=
  exists p f q g, l1 = p ++ f :: q /\ l2 = g :: q /\ length p = s /\
    main_txt g = skipn c (main_txt f) /\ left_txt g = [] /\ zlen (left_space g) = indent /\
    linenum g = linenum f /\ bits g = bits f.
