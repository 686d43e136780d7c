(* How the strings of Str_Model.v and views are seen by a user. *)
From Verif Require Import Base Str_Model.

(* string a has content l; more memory may follow *)
Definition text (a : sref) (l : list Z) : Prop := exists rest, mem a = l ++ rest /\ len a = length l.
(* and is null terminated *)
Definition nul_text (a : sref) (l : list Z) (rest : list Z) : Prop :=
  mem a = l ++ 0%Z :: rest /\ len a = length l /\ ~ In 0%Z l.
(* it is exactly the memory that can be read, as for a view of a whole array *)
Definition exact_text (a : sref) (l : list Z) : Prop := mem a = l /\ len a = length l.
(* a C string with characters s *)
Definition c_string (m s : list Z) : Prop := ~ In 0%Z s /\ exists rest, m = s ++ 0%Z :: rest.
(* view v has content l *)
Definition view_text (v : view) (l : list Z) : Prop :=
  vlen v = length l /\ exists a b, base v = a ++ l ++ b /\ off v = length a.
