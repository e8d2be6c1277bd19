(** * Allocation and deletion of intermediate objects

    A small language for the pointer statements of src/hc_cc_state_space/*_state_space.cpp and of the
    destructors in src/hc_cc_state_space/paths.cpp: allocation, copying of pointers, dereferencing, [delete], branching,
    calls and returns. Everything else in these functions computes numbers and is left out; a branch on such a
    number may go either way. Pointer variables and pointer members have names. The programs themselves are in
    ModelOwn*.v. *)
From Coq Require Import List String Bool Arith.
Import ListNotations.

(** Statements, e.g. of src/hc_cc_state_space/cc00_dubins_state_space.cpp:276-309. *)
Inductive Stm : Type :=
  | Declare (x : string)                 (* Configuration *x; *)
  | SetNull (x : string)                 (* x = nullptr; *)
  | New (x : string)                     (* x = new T(...); *)
  | Use (x : string)                     (* an expression that contains *x or x->... *)
  | UseOrNull (x : string)               (* the same, where it is not known here that x is not null *)
  | Assign (x y : string)                (* x = y; *)
  | Delete (x : string)                  (* delete x; *)
  | Drop (x : string)                    (* the lifetime of the variable x ends *)
  | Either (a b : list Stm)              (* if (...) { a } else { b } *)
  | Call (body : list Stm)               (* statements that [Return] ends: the body of a function or of a loop *)
  | Proc (f : string) (rs : list string) (* a call of the function f, which sets the variables rs *)
  | Return.                              (* return ...; *)

(** The value of a pointer variable. *)
Inductive Value : Type := Uninit | Null | Ptr (block : nat).

(** Memory: the pointer variables, the allocated blocks, and the next fresh block. *)
Record Heap : Type := mkHeap { h_env : string -> Value; h_live : list nat; h_next : nat }.

(** Assignment to a pointer variable. *)
Definition put (env : string -> Value) (x : string) (v : Value) : string -> Value :=
  fun y => if String.eqb y x then v else env y.

(** The result of executing statements: normal end, return, or undefined behaviour. The list holds the
    outcomes of the branches still to come. *)
Inductive Result : Type :=
  | Normal (h : Heap) (choices : list bool)
  | Returned (h : Heap) (choices : list bool)
  | Undefined.

(** Whether a block is allocated. *)
Definition is_live (n : nat) (live : list nat) : bool := existsb (Nat.eqb n) live.

(** Execution of a sequence, given the execution of one statement. *)
Definition exec_list (exec : Stm -> Heap -> list bool -> Result) : list Stm -> Heap -> list bool -> Result :=
  fix go (l : list Stm) (h : Heap) (choices : list bool) : Result :=
    match l with
    | [] => Normal h choices
    | s :: l =>
        match exec s h choices with
        | Normal h choices => go l h choices
        | Returned h choices => Returned h choices
        | Undefined => Undefined
        end
    end.

Section Execution.

(** The functions that can be called. *)
Variable call : string -> Heap -> list bool -> Result.

(** Execution. [UseOrNull] is for the pointers to the selected path and its members: which of them are null
    depends on numbers that are not kept here; that no null pointer is dereferenced there is stated about the
    models of the planners in PropPlan.v and PropCC.v. Undefined behaviour otherwise: dereferencing a pointer that does not point to an allocated block, deleting
    one that neither does so nor is null, copying an uninitialised one. A function has its own variables; those
    that hold its result are handed to the caller at its end. *)
Fixpoint exec (s : Stm) (h : Heap) (choices : list bool) : Result :=
  match s with
  | Declare x => Normal (mkHeap (put (h_env h) x Uninit) (h_live h) (h_next h)) choices
  | SetNull x => Normal (mkHeap (put (h_env h) x Null) (h_live h) (h_next h)) choices
  | New x => Normal (mkHeap (put (h_env h) x (Ptr (h_next h))) (h_next h :: h_live h) (S (h_next h))) choices
  | Use x =>
      match h_env h x with
      | Ptr n => if is_live n (h_live h) then Normal h choices else Undefined
      | _ => Undefined
      end
  | UseOrNull x =>
      match h_env h x with
      | Ptr n => if is_live n (h_live h) then Normal h choices else Undefined
      | Null => Normal h choices
      | Uninit => Undefined
      end
  | Assign x y =>
      match h_env h y with
      | Uninit => Undefined
      | v => Normal (mkHeap (put (h_env h) x v) (h_live h) (h_next h)) choices
      end
  | Delete x =>
      match h_env h x with
      | Uninit => Undefined
      | Null => Normal h choices
      | Ptr n =>
          if is_live n (h_live h)
          then Normal (mkHeap (h_env h) (remove Nat.eq_dec n (h_live h)) (h_next h)) choices
          else Undefined
      end
  | Drop x => Normal (mkHeap (put (h_env h) x Uninit) (h_live h) (h_next h)) choices
  | Either a b =>
      match choices with
      | true :: choices => exec_list exec a h choices
      | false :: choices => exec_list exec b h choices
      | [] => exec_list exec b h []
      end
  | Call body =>
      match exec_list exec body h choices with
      | Normal h choices => Normal h choices
      | Returned h choices => Normal h choices
      | Undefined => Undefined
      end
  | Proc f rs =>
      match call f (mkHeap (fun _ => Uninit) (h_live h) (h_next h)) choices with
      | Normal h' choices | Returned h' choices =>
          Normal (mkHeap (fun x => if existsb (String.eqb x) rs then h_env h' x else h_env h x) (h_live h') (h_next h')) choices
      | Undefined => Undefined
      end
  | Return => Returned h choices
  end.

End Execution.

(** Functions, each of which may call those that follow it. *)
Fixpoint calls (functions : list (string * list Stm)) : string -> Heap -> list bool -> Result :=
  match functions with
  | [] => fun _ _ _ => Undefined
  | (g, body) :: earlier =>
      fun f h choices => if String.eqb f g then exec_list (exec (calls earlier)) body h choices else calls earlier f h choices
  end.

(** A whole program, started without allocated blocks. *)
Definition run_program (functions : list (string * list Stm)) (p : list Stm) (choices : list bool) : Result :=
  exec_list (exec (calls functions)) p (mkHeap (fun _ => Uninit) [] 0) choices.
