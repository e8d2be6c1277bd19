(** * States between which the planners find the same distance in both orders *)
From Coq Require Import Reals ZArith List Lra Lia Bool.
From Verif Require Import Base ModelUtil ModelFresnel ModelCircle ModelPaths Num SpecPath SpecTurn SpecSide SpecPlan SpecOpt PlanRefute PlanBounds PlanCases MovedCases.
Open Scope R_scope.
Lemma back_case ka kb : let s1 := mkState 0 0 0 ka 1 in let s2 := mkState 60 80 1 kb 1 in epsilon < 1 / 1 /\
  (forall l f, no_turn_00 1 1 l f s1 s2) /\ (forall l1 l2 f1 f2, turn_centre 1 1 l1 f1 s1 <> turn_centre 1 1 l2 f2 s2) /\
  (forall l, no_turn_pmpm 1 l s1 s2) /\ (forall l1 l2, arc_centre 1 l1 s1 <> arc_centre 1 l2 s2) /\
  epsilon + 10 * (1 / 1 + 1 / 1) <= pos_dist s1 s2 /\ pos_dist s1 s2 + 2 * detour 1 1 < DBL_MAX.
Proof.
  intros s1 s2. destruct (moved_case ka kb) as (_ & E & _ & _ & _ & A & B & C & D). split; [exact E|split; [exact A|split; [exact B|split; [exact C|split; [exact D|]]]]].
  assert (P : pos_dist s1 s2 = 100). { unfold s1, s2, pos_dist; cbn [st_x st_y]. replace ((0 - 60) ^ 2 + (0 - 80) ^ 2) with (100 ^ 2) by ring. apply sqrt_pow2; lra. }
  rewrite P. split; [unfold epsilon; lra|].
  unfold detour, DBL_MAX. assert (HB : IZR 1000 <= IZR (2 ^ 1024 - 2 ^ 971)) by (apply IZR_le; vm_compute; discriminate). lra.
Qed.
