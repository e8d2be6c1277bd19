(** * Vocabulary for calls on shared planning objects *)
From Coq Require Import Reals List.
From Verif Require Import Base ModelUtil ModelWrap ModelShared.
From Verif Require ModelCC00D ModelCC0pmD ModelCCpm0D ModelCCpmpmD ModelCC00R ModelHC00R ModelHC0pmR ModelHCpm0R ModelHCpmpmR.
Import ListNotations.

(** The hybrid and continuous curvature spaces with the arguments of their constructors. [junk] stands for the
    uninitialised direction of predicted states. *)
Inductive Space : Type :=
  | CC00_Dubins (kappa sigma : R) (forwards : bool)
  | CC0pm_Dubins (kappa sigma : R) (forwards : bool)
  | CCpm0_Dubins (kappa sigma : R) (forwards : bool)
  | CCpmpm_Dubins (kappa sigma : R) (forwards : bool)
  | CC00_Reeds_Shepp (kappa sigma : R)
  | HC00_Reeds_Shepp (kappa sigma : R)
  | HC0pm_Reeds_Shepp (kappa sigma : R)
  | HCpm0_Reeds_Shepp (kappa sigma : R)
  | HCpmpm_Reeds_Shepp (kappa sigma : R)
  | CC_Dubins (junk kappa sigma : R) (forwards : bool)
  | HC_Reeds_Shepp (junk kappa sigma : R).

(** get_distance of an object of the space. *)
Definition space_distance (space : Space) (object : nat) : State -> State -> Prog (option flt) :=
  match space with
  | CC00_Dubins k s f => cc00d_get_distance k s f (part object 0)
  | CC0pm_Dubins k s f => cc0pmd_get_distance k s f (part object 0)
  | CCpm0_Dubins k s f => ccpm0d_get_distance k s f (part object 0)
  | CCpmpm_Dubins k s f => ccpmpmd_get_distance k s f (part object 0)
  | CC00_Reeds_Shepp k s => cc00r_get_distance k s (part object 0)
  | HC00_Reeds_Shepp k s => hc00r_get_distance k s (part object 0)
  | HC0pm_Reeds_Shepp k s => hc0pmr_get_distance k s (part object 0)
  | HCpm0_Reeds_Shepp k s => hcpm0r_get_distance k s (part object 0)
  | HCpmpm_Reeds_Shepp k s => hcpmpmr_get_distance k s (part object 0)
  | CC_Dubins j k s f => cc_dubins_get_distance j k s f object
  | HC_Reeds_Shepp j k s => hc_rs_get_distance j k s object
  end.

(** The value of get_distance computed without shared members. *)
Definition pure_distance (space : Space) : State -> State -> option flt :=
  match space with
  | CC00_Dubins k s f => ModelCC00D.get_distance k s f
  | CC0pm_Dubins k s f => ModelCC0pmD.get_distance k s f
  | CCpm0_Dubins k s f => ModelCCpm0D.get_distance k s f
  | CCpmpm_Dubins k s f => ModelCCpmpmD.get_distance k s f
  | CC00_Reeds_Shepp k s => ModelCC00R.get_distance k s
  | HC00_Reeds_Shepp k s => ModelHC00R.get_distance k s
  | HC0pm_Reeds_Shepp k s => ModelHC0pmR.get_distance k s
  | HCpm0_Reeds_Shepp k s => ModelHCpm0R.get_distance k s
  | HCpmpm_Reeds_Shepp k s => ModelHCpmpmR.get_distance k s
  | CC_Dubins j k s f => cc_dubins_distance j k s f
  | HC_Reeds_Shepp j k s => hc_rs_distance j k s
  end.

(** get_controls of an object of the space. *)
Definition space_controls (space : Space) (object : nat) : State -> State -> Prog (option (list Control)) :=
  match space with
  | CC00_Dubins k s f => cc00d_get_controls k s f (part object 0)
  | CC0pm_Dubins k s f => cc0pmd_get_controls k s f (part object 0)
  | CCpm0_Dubins k s f => ccpm0d_get_controls k s f (part object 0)
  | CCpmpm_Dubins k s f => ccpmpmd_get_controls k s f (part object 0)
  | CC00_Reeds_Shepp k s => cc00r_get_controls k s (part object 0)
  | HC00_Reeds_Shepp k s => hc00r_get_controls k s (part object 0)
  | HC0pm_Reeds_Shepp k s => hc0pmr_get_controls k s (part object 0)
  | HCpm0_Reeds_Shepp k s => hcpm0r_get_controls k s (part object 0)
  | HCpmpm_Reeds_Shepp k s => hcpmpmr_get_controls k s (part object 0)
  | CC_Dubins j k s f => cc_dubins_get_controls j k s f object
  | HC_Reeds_Shepp j k s => hc_rs_get_controls j k s object
  end.

(** The value of get_controls computed without shared members. *)
Definition pure_controls (space : Space) : State -> State -> option (list Control) :=
  match space with
  | CC00_Dubins k s f => ModelCC00D.get_controls k s f
  | CC0pm_Dubins k s f => ModelCC0pmD.get_controls k s f
  | CCpm0_Dubins k s f => ModelCCpm0D.get_controls k s f
  | CCpmpm_Dubins k s f => ModelCCpmpmD.get_controls k s f
  | CC00_Reeds_Shepp k s => ModelCC00R.get_controls k s
  | HC00_Reeds_Shepp k s => ModelHC00R.get_controls k s
  | HC0pm_Reeds_Shepp k s => ModelHC0pmR.get_controls k s
  | HCpm0_Reeds_Shepp k s => ModelHCpm0R.get_controls k s
  | HCpmpm_Reeds_Shepp k s => ModelHCpmpmR.get_controls k s
  | CC_Dubins j k s f => cc_dubins_controls j k s f
  | HC_Reeds_Shepp j k s => hc_rs_controls j k s
  end.

(** One call of a planning function. *)
Inductive Call : Type :=
  | Ask_distance (space : Space) (object : nat) (state1 state2 : State)
  | Ask_controls (space : Space) (object : nat) (state1 state2 : State).

(** The contents of the members after a sequence of calls on any objects. *)
Fixpoint after (calls : list Call) (mem : Memory) : Memory :=
  match calls with
  | [] => mem
  | Ask_distance space object a b :: calls => after calls (snd (run (space_distance space object a b) mem))
  | Ask_controls space object a b :: calls => after calls (snd (run (space_controls space object a b) mem))
  end.

(** Whatever the schedule, two calls that have both returned have the answers of calls made alone. *)
Definition undisturbed {A B} (p : Prog A) (q : Prog B) : Prop :=
  forall (mem : Memory) (schedule : list bool) (a : A) (b : B) (mem' : Memory),
    interleave schedule p q mem = (Done a, Done b, mem') ->
    a = fst (run p mem) /\ b = fst (run q mem).
