(** Specification: what an interrupted offline run leaves behind. *)
From Coq Require Import Ascii String.
From Verif Require Import M_Base M_Tables M_Store.

(** All the pieces of a text *)
Fixpoint text_of (l : list string) : string := match l with [] => EmptyString | s :: rest => (s ++ text_of rest)%string end.
(** File p of [fs] holds all of this text, or only the beginning of it *)
Definition complete (fs : filesystem string) (p text : string) : Prop := fs p = Some text.
Definition beginning (fs : filesystem string) (p text : string) : Prop := exists a b, text = (a ++ b)%string /\ fs p = Some a.
