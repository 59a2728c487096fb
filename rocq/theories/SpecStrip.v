(** * Specification: a document without its comments and trailing commas

    Two passes over the text which know nothing of the grammar of JSON, apart
    from where strings begin and end. *)

From Verif Require Import Base.

(** Position in the text *)
Inductive pass_mode : Type :=
| Outside             (* not in a string or a comment *)
| InString            (* in a string *)
| InEscape            (* in a string, behind a backslash *)
| AtSlash             (* behind a slash which may begin a comment *)
| InLine              (* in a comment which ends with the line *)
| InBlock             (* in a block comment *)
| InBlockStar.        (* in a block comment, behind an asterisk *)

(** Replaces every comment by [sep]; the line break which ends a line comment stays. *)
Fixpoint replace_comments (sep : bytes) (m : pass_mode) (t : bytes) : bytes :=
  match t with
  | [] => match m with AtSlash => [0x2F] | _ => [] end
  | b :: t' =>
    match m with
    | Outside =>
      if b =? 0x2F then replace_comments sep AtSlash t'
      else b :: replace_comments sep (if b =? 0x22 then InString else Outside) t'
    | InString =>
      b :: replace_comments sep (if b =? 0x22 then Outside else if b =? 0x5C then InEscape else InString) t'
    | InEscape => b :: replace_comments sep InString t'
    | AtSlash =>
      if b =? 0x2F then sep ++ replace_comments sep InLine t'
      else if b =? 0x2A then sep ++ replace_comments sep InBlock t'
      else 0x2F :: b :: replace_comments sep Outside t'
    | InLine =>
      if (b =? 0x0A) || (b =? 0x0D) then b :: replace_comments sep Outside t'
      else replace_comments sep InLine t'
    | InBlock => replace_comments sep (if b =? 0x2A then InBlockStar else InBlock) t'
    | InBlockStar =>
      if b =? 0x2F then replace_comments sep Outside t'
      else replace_comments sep (if b =? 0x2A then InBlockStar else InBlock) t'
    end
  end.

(** The next byte which is not whitespace is a closing bracket *)
Fixpoint closing (t : bytes) : bool :=
  match t with
  | [] => false
  | b :: t' =>
    if (b =? 0x20) || (b =? 0x09) || (b =? 0x0A) || (b =? 0x0D) then closing t'
    else (b =? 0x5D) || (b =? 0x7D)
  end.

(** Removes every comma which is followed by a closing bracket *)
Fixpoint remove_trailing_commas (m : pass_mode) (t : bytes) : bytes :=
  match t with
  | [] => []
  | b :: t' =>
    match m with
    | InString =>
      b :: remove_trailing_commas (if b =? 0x22 then Outside else if b =? 0x5C then InEscape else InString) t'
    | InEscape => b :: remove_trailing_commas InString t'
    | _ =>
      if (b =? 0x2C) && closing t' then remove_trailing_commas Outside t'
      else b :: remove_trailing_commas (if b =? 0x22 then InString else Outside) t'
    end
  end.

(** [sep]: what is left of a comment *)
Definition without_extensions (sep : bytes) (t : bytes) : bytes :=
  remove_trailing_commas Outside (replace_comments sep Outside t).
