(* What the text conversions of internal/string_convert and the logging stand-in should do.  Nothing
   here mentions the code; numerals are those of Charconv_Spec. *)
From Coq Require Import List ZArith Bool.
From Verif Require Import Base MachInt Charconv_Spec.
Import ListNotations.
Local Open Scope Z_scope.

(* The characters s, none of them NUL, as a C string in memory: a NUL and then anything. *)
Definition c_string (s rest : list Z) : list Z := s ++ 0 :: rest.
Definition text (s : list Z) : Prop := Forall (fun c => -128 <= c <= 127 /\ c <> 0) s.

(* Blank space of the C locale. *)
Definition blank (c : Z) : Prop := c = 32 \/ 9 <= c <= 13.

(* A sign and what it multiplies by; it may be missing. *)
Definition sign_text (neg : bool) (s : list Z) : Prop :=
  if neg then s = [45] else s = [] \/ s = [43].

(* The text starts with the decimal number v: blanks, a sign, digits up to something that is no digit. *)
Definition begins_with (s : list Z) (v : Z) : Prop :=
  exists ws neg sg pre ds tail,
    s = ws ++ sg ++ pre ++ tail /\ Forall blank ws /\ sign_text neg sg /\ spells 10 pre ds /\ ds <> [] /\
    no_digit_head 10 tail /\ v = (if neg then - value_of 10 ds else value_of 10 ds).
(* It starts with no number: after the blanks and at most one sign there is no digit. *)
Definition begins_with_none (s : list Z) : Prop :=
  exists ws neg sg tail, s = ws ++ sg ++ tail /\ Forall blank ws /\ sign_text neg sg /\
    no_digit_head 10 tail /\ (forall c r, tail = c :: r -> ~ blank c /\ (sg = [] -> c <> 43 /\ c <> 45)).

(* Only decimal digits, at least one, and the number they spell. *)
Definition all_digits (s : list Z) : Prop := s <> [] /\ Forall (fun c => 48 <= c <= 57) s.
Definition number_of (s : list Z) : Z := value_of 10 (map (fun c => c - 48) s).

Definition ascii (s : list Z) : Prop := Forall (fun c => 0 < c <= 127) s.

(* How many characters the decimal numeral of v takes, sign included. *)
Definition numeral_fits (v : Z) (n : nat) : Prop := forall s, is_numeral false 10 v s -> (length s <= n)%nat.
Definition numeral_fills (v : Z) (n : nat) : Prop := exists s, is_numeral false 10 v s /\ length s = n.

(* ---- logging ---- *)

(* One line of the log: the letter of the level, the tag and the message. *)
Definition log_line (letter : list Z) (tag msg : list Z) : list Z := letter ++ tag ++ [58; 32] ++ msg ++ [10].
(* A plain text: one that contains no percent sign. *)
Definition plain (s : list Z) : Prop := ~ In 37 s.
(* The text with a conversion in it: the first percent sign is not followed by another. *)
Definition has_conversion (s : list Z) : Prop := exists a c b, s = a ++ 37 :: c :: b /\ plain a /\ c <> 37.
(* What a format prints: each conversion the next argument, %% a percent sign. *)
Inductive prints : list Z -> list (list Z) -> list Z -> Prop :=
| p_end args : prints [] args []
| p_char c fmt args out : c <> 37 -> prints fmt args out -> prints (c :: fmt) args (c :: out)
| p_percent fmt args out : prints fmt args out -> prints (37 :: 37 :: fmt) args (37 :: out)
| p_conv c fmt a args out : c <> 37 -> prints fmt args out -> prints (37 :: c :: fmt) (a :: args) (a ++ out).

(* The levels of a message, the letter each is shown with, and the calls a program makes. *)
Inductive level := LNone | LError | LWarn | LInfo | LDebug | LVerbose.
Definition letter (l : level) : list Z :=
  match l with
  | LNone => [] | LError => [69; 32] | LWarn => [87; 32] | LInfo => [73; 32] | LDebug => [68; 32] | LVerbose => [86; 32]
  end.
Definition shown (l : level) : Prop := l <> LDebug /\ l <> LVerbose.
Inductive log_call := SetWriter (f : nat) | Log (l : level) (tag fmt : list Z) (args : list (list Z)).
(* From writer cur on: the lines each writer gets, in order, and what the calls to SetWriter return. *)
Inductive logs : nat -> list log_call -> list (nat * list Z) -> list nat -> Prop :=
| l_end cur : logs cur [] [] []
| l_set cur f ops lines rets : logs f ops lines rets -> logs cur (SetWriter f :: ops) lines (cur :: rets)
| l_shown cur l tag fmt args msg ops lines rets :
    shown l -> plain tag -> prints fmt args msg -> logs cur ops lines rets ->
    logs cur (Log l tag fmt args :: ops) ((cur, log_line (letter l) tag msg) :: lines) rets
| l_hidden cur l tag fmt args ops lines rets :
    ~ shown l -> logs cur ops lines rets -> logs cur (Log l tag fmt args :: ops) lines rets.

(* The text does not start with 0x; it is a prefix in base 16 only. *)
Definition no_hex (base : Z) (pre tail : list Z) : Prop :=
  base = 16 -> pre = [48] -> forall c r, tail = c :: r -> c <> 120 /\ c <> 88.
