(* exp/memory/memory_pool2.h:127-382 virtual_memory<N, N_Handles>.
   The storage is bytes, each of which is a byte of the user or belongs to the item (the header of a free
   chunk) that was last written over it.  Reading an item some of whose bytes were written over is
   undefined here (the program would use the user's bytes as a pointer and a size).  hdr is sizeof(item).
   Pointers into the storage are offsets.  Alignment of items is not modelled, and the sizes are taken
   to be below the range of unsigned. *)
From Coq Require Import List Arith Bool.
From Verif Require Import Base Vm_Spec.
Import ListNotations.
Local Open Scope res_scope.

Section Vm.
Context {B : Type}.
Variable hdr N : nat.

(* :153-158 *)
Record item := { next : option nat; chunk : nat }.
Inductive byte := User (x : B) | Head (o : nat).
(* :120-125, 132-179; the handles' data and chunk_size.  items_processed is [processed]. *)
Inductive mmode := Uninitialized | Compact | Move.
Record vm := { mem : nat -> option byte; items : nat -> item; handles : list (option (nat * nat)); free_head : option nat;
  mode : mmode; evaluating : option nat; evaluating_prev : option nat; processed : nat }.

Definition rd_item (v : vm) (o : nat) : result item :=
  if forallb (fun b => match mem v b with Some (Head p) => p =? o | _ => false end) (seq o hdr) then Ok (items v o) else UB.
Definition wr_item (v : vm) (o : nat) (it : item) : result vm :=
  if o + hdr <=? N then
    Ok {| mem := fun b => if (o <=? b) && (b <? o + hdr) then Some (Head o) else mem v b;
          items := fun p => if p =? o then it else items v p;
          handles := handles v; free_head := free_head v; mode := mode v; evaluating := evaluating v; evaluating_prev := evaluating_prev v; processed := processed v |}
  else UB.
Definition put_handle (v : vm) (h : nat) (x : option (nat * nat)) : vm :=
  {| mem := mem v; items := items v; handles := set_nth (handles v) h x; free_head := free_head v; mode := mode v; evaluating := evaluating v; evaluating_prev := evaluating_prev v; processed := processed v |}.
Definition put_head (v : vm) (x : option nat) : vm :=
  {| mem := mem v; items := items v; handles := handles v; free_head := x; mode := mode v; evaluating := evaluating v; evaluating_prev := evaluating_prev v; processed := processed v |}.
Definition put_mode (v : vm) (m : mmode) : vm :=
  {| mem := mem v; items := items v; handles := handles v; free_head := free_head v; mode := m; evaluating := evaluating v; evaluating_prev := evaluating_prev v; processed := processed v |}.
Definition put_eval (v : vm) (e p : option nat) : vm :=
  {| mem := mem v; items := items v; handles := handles v; free_head := free_head v; mode := mode v; evaluating := e; evaluating_prev := p; processed := processed v |}.
Definition put_processed (v : vm) (n : nat) : vm :=
  {| mem := mem v; items := items v; handles := handles v; free_head := free_head v; mode := mode v; evaluating := evaluating v; evaluating_prev := evaluating_prev v; processed := n |}.

(* :182-187 virtual_memory(), :149 handle() *)
Definition vm_init (K : nat) : result vm :=
  wr_item {| mem := fun _ => None; items := fun _ => {| next := None; chunk := 0 |}; handles := repeat None K; free_head := Some 0;
             mode := Uninitialized; evaluating := None; evaluating_prev := None; processed := 0 |} 0 {| next := None; chunk := N |}.

(* :189-203 get_free_handle *)
Fixpoint scan_handles (l : list (option (nat * nat))) (i : nat) : option nat :=
  match l with
  | [] => None
  | None :: _ => Some i
  | Some _ :: r => scan_handles r (S i)
  end.
Definition get_free_handle (v : vm) : option nat := scan_handles (handles v) 0.

(* :216-248 the loop of allocate; prev is not initialised before the first round.
   Writing through a null handle is undefined. *)
Fixpoint alloc_loop (fuel : nat) (v : vm) (i prev : option nat) (n : nat) : result (vm * option nat) :=
  match fuel with
  | O => Diverge
  | S f =>
      match i with
      | None => Ok (v, None)
      | Some o =>
          it <- rd_item v o ;;
          if chunk it =? n then
            match prev with
            | None => UB
            | Some p =>
                pit <- rd_item v p ;;
                v1 <- wr_item v p {| next := next it; chunk := chunk pit |} ;;
                match get_free_handle v1 with
                | None => UB
                | Some h => Ok (put_handle v1 h (Some (o, n)), Some h)
                end
            end
          else if n <? chunk it then
            match get_free_handle v with
            | None => UB
            | Some h =>
                v1 <- wr_item (put_handle v h (Some (o + (chunk it - n), n))) o {| next := next it; chunk := chunk it - n |} ;;
                Ok (v1, Some h)
            end
          else alloc_loop f v (next it) (Some o) n
      end
  end.
(* :205-249; the fuel is enough for every list of disjoint chunks *)
Definition allocate (v : vm) (n : nat) : result (vm * option nat) :=
  alloc_loop (S (S N)) v (free_head v) None (if n <? hdr then hdr else n).

(* :251-263 *)
Definition free (v : vm) (h : nat) : result vm :=
  match nth_error (handles v) h with
  | Some (Some (o, c)) =>
      v1 <- wr_item v o {| next := free_head v; chunk := c |} ;;
      Ok (put_head (put_handle v1 h None) (Some o))
  | _ => UB
  end.

(* :265-281 *)
Fixpoint total_loop (fuel : nat) (v : vm) (i : option nat) (count nodes : nat) : result (nat * nat) :=
  match fuel with
  | O => Diverge
  | S f => match i with
           | None => Ok (count, nodes)
           | Some o => it <- rd_item v o ;; total_loop f v (next it) (count + chunk it) (S nodes)
           end
  end.
Definition total_free (v : vm) : result (nat * nat) := total_loop (S (S N)) v (free_head v) 0 0.

(* :283-299; the callers pass i_physical_0 < i_physical_1 *)
Definition maint_absorb (v : vm) (p0 p1 : nat) : result (vm * bool) :=
  i0 <- rd_item v p0 ;;
  if p1 - p0 =? chunk i0 then
    i1 <- rd_item v p1 ;;
    v1 <- wr_item (put_processed v (S (processed v))) p0 {| next := next i1; chunk := chunk i0 + chunk i1 |} ;;
    Ok (v1, true)
  else Ok (v, false).

(* :303-348 *)
Definition maint_compact (v : vm) : result vm :=
  match evaluating v with
  | None => UB
  | Some i =>
      it <- rd_item v i ;;
      match next it with
      | None => Ok v
      | Some nx =>
          if nx <? i then
            i0 <- rd_item v nx ;;
            v1 <- wr_item (put_processed v (S (processed v))) nx {| next := Some i; chunk := chunk i0 |} ;;
            i1 <- rd_item v1 i ;;
            v2 <- wr_item v1 i {| next := next i0; chunk := chunk i1 |} ;;
            v3 <- match evaluating_prev v with
                  | None => Ok (put_head v2 (Some nx))
                  | Some p => ip <- rd_item v2 p ;; wr_item v2 p {| next := Some nx; chunk := chunk ip |}
                  end ;;
            ' (v4, _) <- maint_absorb v3 nx i ;;
            (* i is i_physical_1 either way *)
            i2 <- rd_item v4 i ;;
            Ok (put_eval v4 (next i2) (Some i))
          else
            ' (v1, absorbed) <- maint_absorb v i nx ;;
            let j := if absorbed : bool then nx else i in
            j2 <- rd_item v1 j ;;
            Ok (put_eval v1 (next j2) (Some j))
      end
  end.
(* :367-374 *)
Definition maint_step (v : vm) : result vm :=
  v1 <- maint_compact (put_processed v 0) ;;
  Ok (if processed v1 =? 0 then put_mode v1 Move else v1).
(* :355-381 *)
Definition maint (v : vm) : result vm :=
  match mode v with
  | Uninitialized => maint_step (put_eval (put_mode v Compact) (free_head v) None)
  | Compact => maint_step v
  | Move => Ok (put_mode v Uninitialized)
  end.

(* the user's reads and writes of a byte through a handle's data *)
Definition store (v : vm) (h i : nat) (x : B) : result vm :=
  match nth_error (handles v) h with
  | Some (Some (o, c)) =>
      if (i <? c) && (o + i <? N) then
        Ok {| mem := fun b => if b =? o + i then Some (User x) else mem v b; items := items v; handles := handles v; free_head := free_head v;
              mode := mode v; evaluating := evaluating v; evaluating_prev := evaluating_prev v; processed := processed v |}
      else UB
  | _ => UB
  end.
Definition load (v : vm) (h i : nat) : result B :=
  match nth_error (handles v) h with
  | Some (Some (o, c)) => if i <? c then match mem v (o + i) with Some (User x) => Ok x | _ => UB end else UB
  | _ => UB
  end.
(* what the handles in use say of where their memory is: begin and size (:141-148) *)
Definition used (v : vm) : list (nat * nat) := flat_map (fun o => match o with Some r => [r] | None => [] end) (handles v).

Definition do_op (v : vm) (o : vop B) : result (vm * vreply B) :=
  match o with
  | Alloc n => ' (v1, h) <- allocate v n ;; Ok (v1, Handle h)
  | Free h => v1 <- free v h ;; Ok (v1, Done)
  | Total => ' (c, k) <- total_free v ;; Ok (v, Counts c k)
  | Store h i x => v1 <- store v h i x ;; Ok (v1, Done)
  | Load h i => x <- load v h i ;; Ok (v, Byte x)
  | Maint => v1 <- maint v ;; Ok (v1, Done)
  end.
Fixpoint run (v : vm) (h : list (vop B)) : result (vm * list (vreply B)) :=
  match h with
  | [] => Ok (v, [])
  | o :: t => ' (v1, a) <- do_op v o ;; ' (v2, l) <- run v1 t ;; Ok (v2, a :: l)
  end.
End Vm.
