(** * C52: planning frees what it allocates *)
From Coq Require Import List String Bool.
From Verif Require Import ModelHeap SpecHeap OwnProofs.
From Verif Require ModelOwnCC00D ModelOwnCC0pmD ModelOwnCCpm0D ModelOwnCCpmpmD ModelOwnCC00R ModelOwnHC00R
  ModelOwnHC0pmR ModelOwnHCpm0R ModelOwnHCpmpmR.
Import ListNotations.

(** For every planner and every outcome of its branches, get_distance and get_controls dereference and delete
    only allocated objects, and no object they allocate is left at their end. *)
Theorem C52_planners_free_what_they_allocate :
  (frees_all ModelOwnCC00D.functions ModelOwnCC00D.get_distance /\ frees_all ModelOwnCC00D.functions ModelOwnCC00D.get_controls) /\
  (frees_all ModelOwnCC0pmD.functions ModelOwnCC0pmD.get_distance /\ frees_all ModelOwnCC0pmD.functions ModelOwnCC0pmD.get_controls) /\
  (frees_all ModelOwnCCpm0D.functions ModelOwnCCpm0D.get_distance /\ frees_all ModelOwnCCpm0D.functions ModelOwnCCpm0D.get_controls) /\
  (frees_all ModelOwnCCpmpmD.functions ModelOwnCCpmpmD.get_distance /\ frees_all ModelOwnCCpmpmD.functions ModelOwnCCpmpmD.get_controls) /\
  (frees_all ModelOwnCC00R.functions ModelOwnCC00R.get_distance /\ frees_all ModelOwnCC00R.functions ModelOwnCC00R.get_controls) /\
  (frees_all ModelOwnHC00R.functions ModelOwnHC00R.get_distance /\ frees_all ModelOwnHC00R.functions ModelOwnHC00R.get_controls) /\
  (frees_all ModelOwnHC0pmR.functions ModelOwnHC0pmR.get_distance /\ frees_all ModelOwnHC0pmR.functions ModelOwnHC0pmR.get_controls) /\
  (frees_all ModelOwnHCpm0R.functions ModelOwnHCpm0R.get_distance /\ frees_all ModelOwnHCpm0R.functions ModelOwnHCpm0R.get_controls) /\
  (frees_all ModelOwnHCpmpmR.functions ModelOwnHCpmpmR.get_distance /\ frees_all ModelOwnHCpmpmR.functions ModelOwnHCpmpmR.get_controls).
Proof.
  exact (conj frees_CC00D (conj frees_CC0pmD (conj frees_CCpm0D (conj frees_CCpmpmD (conj frees_CC00R (conj frees_HC00R (conj frees_HC0pmR (conj frees_HCpm0R frees_HCpmpmR)))))))).
Qed.
Print Assumptions C52_planners_free_what_they_allocate.

(** The programs do allocate: runs with many objects that end without any. *)
Example C52_allocates :
  match run_program ModelOwnHCpmpmR.functions ModelOwnHCpmpmR.get_controls
          (flat_map (fun _ => repeat false 10 ++ [true; true]) (seq 0 60)) with
  | Normal h _ => h_next h = 323 /\ h_live h = []
  | _ => False
  end.
Proof. vm_compute; split; reflexivity. Qed.

(** A block that is forgotten remains, and a second delete is undefined. *)
Example C52_leak : exists h, run_program [] [New "x"%string; New "x"%string; Delete "x"%string] [] = Normal h [] /\ h_live h <> [].
Proof. eexists; split; [reflexivity | discriminate]. Qed.
Example C52_double_delete : run_program [] [New "x"%string; Assign "y"%string "x"%string; Delete "x"%string; Delete "y"%string] [] = Undefined.
Proof. reflexivity. Qed.
