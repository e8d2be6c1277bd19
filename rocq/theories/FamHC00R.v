(** * The families of candidates of the planner of ModelHC00R.v *)
From Coq Require Import Reals ZArith List Lra Lia Bool.
From Verif Require Import Base ModelUtil ModelCircle ModelPaths ModelHC00R Num UtilProofs SpecPath SpecTurn SpecPlan PoseAlg TurnProofs MotionProofs TurnBounds LegProofs TangentProofs PlanProofs PlanTactics PlanHybrid PlanFamily.
Import ListNotations.
Open Scope R_scope.

Lemma TT_good k s a b l1 f1 l2 f2 c1 c2 D an L : 0 < k -> 0 < s -> c1 = circle a l1 f1 true (hc_cc_param k s) -> c2 = circle b l2 f2 true (hc_cc_param k s) ->
  D = center_distance c1 c2 -> an = atan2 (c_yc c2 - c_yc c1) (c_xc c2 - c_xc c1) -> e_length (entry_TT k s D an c1 c2) = Some L -> L < DBL_MAX ->
  exists cs, path_controls (mkHPath RS_TT a b (entry_TT k s D an c1 c2)) = Some cs /\ goodh k s (rs_gap k s RS_TT) (rs_pieces RS_TT) a b 0 0 cs L.
Proof.
  intros Hk Hs H1 H2 HD HA EL LM. unfold entry_TT in *. entry X P. setup2. cbv beta delta [TT_path] in P.
  unfold TT_exists in X; conditions X; fields_in P; steps P.
  all: circles2.
Qed.

Lemma TcT_good k s a b l1 f1 l2 f2 c1 c2 D an L : 0 < k -> 0 < s -> c1 = circle a l1 f1 true (hc_cc_param k s) -> c2 = circle b l2 f2 true (hc_cc_param k s) ->
  D = center_distance c1 c2 -> an = atan2 (c_yc c2 - c_yc c1) (c_xc c2 - c_xc c1) -> e_length (entry_TcT D an c1 c2) = Some L -> L < DBL_MAX ->
  exists cs, path_controls (mkHPath RS_TcT a b (entry_TcT D an c1 c2)) = Some cs /\ goodh k s (rs_gap k s RS_TcT) (rs_pieces RS_TcT) a b 0 0 cs L.
Proof.
  intros Hk Hs H1 H2 HD HA EL LM. unfold entry_TcT in *. entry X P. setup2. cbv beta delta [TcT_path] in P.
  unfold TcT_exists in X; conditions X; fields_in P; steps P.
  all: circles2.
Qed.

Lemma TcTcT_good k s a b l1 f1 l2 f2 c1 c2 D an L : 0 < k -> 0 < s -> c1 = circle a l1 f1 true (hc_cc_param k s) -> c2 = circle b l2 f2 true (hc_cc_param k s) ->
  D = center_distance c1 c2 -> an = atan2 (c_yc c2 - c_yc c1) (c_xc c2 - c_xc c1) -> e_length (entry_TcTcT k s D an c1 c2) = Some L -> L < DBL_MAX ->
  exists cs, path_controls (mkHPath RS_TcTcT a b (entry_TcTcT k s D an c1 c2)) = Some cs /\ goodh k s (rs_gap k s RS_TcTcT) (rs_pieces RS_TcTcT) a b 0 0 cs L.
Proof.
  intros Hk Hs H1 H2 HD HA EL LM. unfold entry_TcTcT in *. entry X P. setup2. cbv beta delta [TcTcT_path TcTcT_tangent_circles] in P.
  unfold TcTcT_exists in X; conditions X; fields_in P; steps P.
  all: circles2.
Qed.

Lemma TcTT_good k s a b l1 f1 l2 f2 c1 c2 D an L : 0 < k -> 0 < s -> c1 = circle a l1 f1 true (hc_cc_param k s) -> c2 = circle b l2 f2 true (hc_cc_param k s) ->
  D = center_distance c1 c2 -> an = atan2 (c_yc c2 - c_yc c1) (c_xc c2 - c_xc c1) -> e_length (entry_TcTT k s D an c1 c2) = Some L -> L < DBL_MAX ->
  exists cs, path_controls (mkHPath RS_TcTT a b (entry_TcTT k s D an c1 c2)) = Some cs /\ goodh k s (rs_gap k s RS_TcTT) (rs_pieces RS_TcTT) a b 0 0 cs L.
Proof.
  intros Hk Hs H1 H2 HD HA EL LM. unfold entry_TcTT in *. entry X P. setup2. cbv beta delta [TcTT_path TcTT_tangent_circles] in P.
  unfold TcTT_exists in X; conditions X; fields_in P; steps P.
  all: circles2.
Qed.

Lemma TTcT_good k s a b l1 f1 l2 f2 c1 c2 D an L : 0 < k -> 0 < s -> c1 = circle a l1 f1 true (hc_cc_param k s) -> c2 = circle b l2 f2 true (hc_cc_param k s) ->
  D = center_distance c1 c2 -> an = atan2 (c_yc c2 - c_yc c1) (c_xc c2 - c_xc c1) -> e_length (entry_TTcT k s D an c1 c2) = Some L -> L < DBL_MAX ->
  exists cs, path_controls (mkHPath RS_TTcT a b (entry_TTcT k s D an c1 c2)) = Some cs /\ goodh k s (rs_gap k s RS_TTcT) (rs_pieces RS_TTcT) a b 0 0 cs L.
Proof.
  intros Hk Hs H1 H2 HD HA EL LM. unfold entry_TTcT in *. entry X P. setup2. cbv beta delta [TTcT_path TTcT_tangent_circles] in P.
  unfold TTcT_exists in X; conditions X; fields_in P; steps P.
  all: circles2.
Qed.

Lemma TST_good k s a b l1 f1 l2 f2 c1 c2 D an L : 0 < k -> 0 < s -> c1 = circle a l1 f1 true (hc_cc_param k s) -> c2 = circle b l2 f2 true (hc_cc_param k s) ->
  D = center_distance c1 c2 -> an = atan2 (c_yc c2 - c_yc c1) (c_xc c2 - c_xc c1) -> e_length (entry_TST k s D an c1 c2) = Some L -> L < DBL_MAX ->
  exists cs, path_controls (mkHPath RS_TST a b (entry_TST k s D an c1 c2)) = Some cs /\ goodh k s (rs_gap k s RS_TST) (rs_pieces RS_TST) a b 0 0 cs L.
Proof.
  intros Hk Hs H1 H2 HD HA EL LM. unfold entry_TST in *. entry X P. setup2. cbv beta delta [TST_path TiST_path TeST_path] in P.
  fields_in P; steps P.
  all: repeat match goal with B : TiST_exists _ _ _ = true |- _ => unfold TiST_exists in B; conditions B | B : TeST_exists _ _ _ = true |- _ => unfold TeST_exists in B; conditions B end.
  all: circles2.
Qed.

Lemma TSTcT_good k s a b l1 f1 l2 f2 c1 c2 D an L : 0 < k -> 0 < s -> c1 = circle a l1 f1 true (hc_cc_param k s) -> c2 = circle b l2 f2 true (hc_cc_param k s) ->
  D = center_distance c1 c2 -> an = atan2 (c_yc c2 - c_yc c1) (c_xc c2 - c_xc c1) -> e_length (entry_TSTcT k s D an c1 c2) = Some L -> L < DBL_MAX ->
  exists cs, path_controls (mkHPath RS_TSTcT a b (entry_TSTcT k s D an c1 c2)) = Some cs /\ goodh k s (rs_gap k s RS_TSTcT) (rs_pieces RS_TSTcT) a b 0 0 cs L.
Proof.
  intros Hk Hs H1 H2 HD HA EL LM. unfold entry_TSTcT in *. entry X P. setup2. cbv beta delta [TSTcT_path TiSTcT_path TeSTcT_path] in P.
  fields_in P; steps P.
  all: repeat match goal with B : TiSTcT_exists _ _ _ = true |- _ => unfold TiSTcT_exists in B; conditions B | B : TeSTcT_exists _ _ _ = true |- _ => unfold TeSTcT_exists in B; conditions B end.
  all: circles2.
Qed.

Lemma TcTST_good k s a b l1 f1 l2 f2 c1 c2 D an L : 0 < k -> 0 < s -> c1 = circle a l1 f1 true (hc_cc_param k s) -> c2 = circle b l2 f2 true (hc_cc_param k s) ->
  D = center_distance c1 c2 -> an = atan2 (c_yc c2 - c_yc c1) (c_xc c2 - c_xc c1) -> e_length (entry_TcTST k s D an c1 c2) = Some L -> L < DBL_MAX ->
  exists cs, path_controls (mkHPath RS_TcTST a b (entry_TcTST k s D an c1 c2)) = Some cs /\ goodh k s (rs_gap k s RS_TcTST) (rs_pieces RS_TcTST) a b 0 0 cs L.
Proof.
  intros Hk Hs H1 H2 HD HA EL LM. unfold entry_TcTST in *. entry X P. setup2. cbv beta delta [TcTST_path TcTiST_path TcTeST_path] in P.
  fields_in P; steps P.
  all: repeat match goal with B : TcTiST_exists _ _ _ = true |- _ => unfold TcTiST_exists in B; conditions B | B : TcTeST_exists _ _ _ = true |- _ => unfold TcTeST_exists in B; conditions B end.
  all: circles2.
Qed.

Lemma TcTSTcT_good k s a b l1 f1 l2 f2 c1 c2 D an L : 0 < k -> 0 < s -> c1 = circle a l1 f1 true (hc_cc_param k s) -> c2 = circle b l2 f2 true (hc_cc_param k s) ->
  D = center_distance c1 c2 -> an = atan2 (c_yc c2 - c_yc c1) (c_xc c2 - c_xc c1) -> e_length (entry_TcTSTcT k s D an c1 c2) = Some L -> L < DBL_MAX ->
  exists cs, path_controls (mkHPath RS_TcTSTcT a b (entry_TcTSTcT k s D an c1 c2)) = Some cs /\ goodh k s (rs_gap k s RS_TcTSTcT) (rs_pieces RS_TcTSTcT) a b 0 0 cs L.
Proof.
  intros Hk Hs H1 H2 HD HA EL LM. unfold entry_TcTSTcT in *. entry X P. setup2. cbv beta delta [TcTSTcT_path TcTiSTcT_path TcTeSTcT_path] in P.
  fields_in P; steps P.
  all: repeat match goal with B : TcTiSTcT_exists _ _ _ = true |- _ => unfold TcTiSTcT_exists in B; conditions B | B : TcTeSTcT_exists _ _ _ = true |- _ => unfold TcTeSTcT_exists in B; conditions B end.
  all: circles2.
Qed.

Lemma TTcTT_good k s a b l1 f1 l2 f2 c1 c2 D an L : 0 < k -> 0 < s -> c1 = circle a l1 f1 true (hc_cc_param k s) -> c2 = circle b l2 f2 true (hc_cc_param k s) ->
  D = center_distance c1 c2 -> an = atan2 (c_yc c2 - c_yc c1) (c_xc c2 - c_xc c1) -> e_length (entry_TTcTT k s D an c1 c2) = Some L -> L < DBL_MAX ->
  exists cs, path_controls (mkHPath RS_TTcTT a b (entry_TTcTT k s D an c1 c2)) = Some cs /\ goodh k s (rs_gap k s RS_TTcTT) (rs_pieces RS_TTcTT) a b 0 0 cs L.
Proof.
  intros Hk Hs H1 H2 HD HA EL LM. unfold entry_TTcTT in *. entry X P. setup2. cbv beta delta [TTcTT_path TTcTT_tangent_circles] in P.
  unfold TTcTT_exists in X; conditions X; fields_in P; steps P.
  all: circles2.
Qed.

Lemma TcTTcT_good k s a b l1 f1 l2 f2 c1 c2 D an L : 0 < k -> 0 < s -> c1 = circle a l1 f1 true (hc_cc_param k s) -> c2 = circle b l2 f2 true (hc_cc_param k s) ->
  D = center_distance c1 c2 -> an = atan2 (c_yc c2 - c_yc c1) (c_xc c2 - c_xc c1) -> e_length (entry_TcTTcT k s D an c1 c2) = Some L -> L < DBL_MAX ->
  exists cs, path_controls (mkHPath RS_TcTTcT a b (entry_TcTTcT k s D an c1 c2)) = Some cs /\ goodh k s (rs_gap k s RS_TcTTcT) (rs_pieces RS_TcTTcT) a b 0 0 cs L.
Proof.
  intros Hk Hs H1 H2 HD HA EL LM. unfold entry_TcTTcT in *. entry X P. setup2. cbv beta delta [TcTTcT_path TcTTcT_tangent_circles] in P.
  unfold TcTTcT_exists in X; conditions X; fields_in P; steps P.
  all: circles2.
Qed.

Lemma TTT_good k s a b l1 f1 l2 f2 c1 c2 D an L : 0 < k -> 0 < s -> c1 = circle a l1 f1 true (hc_cc_param k s) -> c2 = circle b l2 f2 true (hc_cc_param k s) ->
  D = center_distance c1 c2 -> an = atan2 (c_yc c2 - c_yc c1) (c_xc c2 - c_xc c1) -> e_length (entry_TTT k s D an c1 c2) = Some L -> L < DBL_MAX ->
  exists cs, path_controls (mkHPath RS_TTT a b (entry_TTT k s D an c1 c2)) = Some cs /\ goodh k s (rs_gap k s RS_TTT) (rs_pieces RS_TTT) a b 0 0 cs L.
Proof.
  intros Hk Hs H1 H2 HD HA EL LM. unfold entry_TTT in *. entry X P. setup2. cbv beta delta [TTT_path TTT_tangent_circles] in P.
  unfold TTT_exists in X; conditions X; fields_in P; steps P.
  all: circles2.
Qed.

Lemma TcST_good k s a b l1 f1 l2 f2 c1 c2 D an L : 0 < k -> 0 < s -> c1 = circle a l1 f1 true (hc_cc_param k s) -> c2 = circle b l2 f2 true (hc_cc_param k s) ->
  D = center_distance c1 c2 -> an = atan2 (c_yc c2 - c_yc c1) (c_xc c2 - c_xc c1) -> e_length (entry_TcST k s D an c1 c2) = Some L -> L < DBL_MAX ->
  exists cs, path_controls (mkHPath RS_TcST a b (entry_TcST k s D an c1 c2)) = Some cs /\ goodh k s (rs_gap k s RS_TcST) (rs_pieces RS_TcST) a b 0 0 cs L.
Proof.
  intros Hk Hs H1 H2 HD HA EL LM. unfold entry_TcST in *. entry X P. setup2. cbv beta delta [TcST_path TciST_path TceST_path] in P.
  destruct l1, f1; fields_in P; cbv beta iota delta [andb negb] in P; steps P.
  all: repeat match goal with B : TciST_exists _ _ _ = true |- _ => unfold TciST_exists in B; conditions B | B : TceST_exists _ _ _ = true |- _ => unfold TceST_exists in B; conditions B end.
  all: lines2.
Qed.

Lemma TScT_good k s a b l1 f1 l2 f2 c1 c2 D an L : 0 < k -> 0 < s -> c1 = circle a l1 f1 true (hc_cc_param k s) -> c2 = circle b l2 f2 true (hc_cc_param k s) ->
  D = center_distance c1 c2 -> an = atan2 (c_yc c2 - c_yc c1) (c_xc c2 - c_xc c1) -> e_length (entry_TScT k s D an c1 c2) = Some L -> L < DBL_MAX ->
  exists cs, path_controls (mkHPath RS_TScT a b (entry_TScT k s D an c1 c2)) = Some cs /\ goodh k s (rs_gap k s RS_TScT) (rs_pieces RS_TScT) a b 0 0 cs L.
Proof.
  intros Hk Hs H1 H2 HD HA EL LM. unfold entry_TScT in *. entry X P. setup2. cbv beta delta [TScT_path TiScT_path TeScT_path] in P.
  destruct l1, f1; fields_in P; cbv beta iota delta [andb negb] in P; steps P.
  all: repeat match goal with B : TiScT_exists _ _ _ = true |- _ => unfold TiScT_exists in B; conditions B | B : TeScT_exists _ _ _ = true |- _ => unfold TeScT_exists in B; conditions B end.
  all: lines2.
Qed.

Lemma TcScT_good k s a b l1 f1 l2 f2 c1 c2 D an L : 0 < k -> 0 < s -> c1 = circle a l1 f1 true (hc_cc_param k s) -> c2 = circle b l2 f2 true (hc_cc_param k s) ->
  D = center_distance c1 c2 -> an = atan2 (c_yc c2 - c_yc c1) (c_xc c2 - c_xc c1) -> e_length (entry_TcScT D an c1 c2) = Some L -> L < DBL_MAX ->
  exists cs, path_controls (mkHPath RS_TcScT a b (entry_TcScT D an c1 c2)) = Some cs /\ goodh k s (rs_gap k s RS_TcScT) (rs_pieces RS_TcScT) a b 0 0 cs L.
Proof.
  intros Hk Hs H1 H2 HD HA EL LM. unfold entry_TcScT in *. entry X P. setup2. cbv beta delta [TcScT_path TciScT_path TceScT_path] in P.
  destruct l1, f1; fields_in P; cbv beta iota delta [andb negb] in P; steps P.
  all: repeat match goal with B : TciScT_exists _ _ _ = true |- _ => unfold TciScT_exists in B; conditions B | B : TceScT_exists _ _ _ = true |- _ => unfold TceScT_exists in B; conditions B end.
  all: lines2.
Qed.

