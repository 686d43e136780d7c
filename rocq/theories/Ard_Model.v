(* Model of the Arduino operators on estd strings: /repo/src/estd/port/arduino/string.h.
   strlen_P and memcpy_P are modelled from their documentation: the text in flash is a list of
   characters other than 0, and they read it.  The text's length fits an int.
   operator+=(basic_string&, const String&), string.h:57-65, is not modelled: it passes a char* where
   String::getBytes takes an unsigned char*, so it does not compile for strings of char. *)
From Verif Require Import Base Dyn_Spec Dyn_Model.
Local Open Scope res_scope.

(* port/arduino/string.h:43-54 operator+=(basic_string&, const __FlashStringHelper* ): the results of resize
   and of lock are not looked at; lock(sz) is a pointer to cell sz (sz converted to size_type) *)
Definition flash_append {A} (c : cfg A) (v : arr A) (text : list A) : vres (arr A) :=
  sz <~ lift (size c v) ;;
  ' (_, v') <~ resize c v (wrap c (sz + length text)) ;;
  m <~ lift (copy_in (buf v') (wrap c sz) text (length text)) ;;
  vret (Arr m (msize v')).

(* port/arduino/string.h:6-13 operator<<(Print&, const dynamic_array&): the bytes given to Print::write *)
Definition print {A} (c : cfg A) (v : arr A) : result (list A) :=
  s <- size c v ;; read_n (buf v) 0 s.
