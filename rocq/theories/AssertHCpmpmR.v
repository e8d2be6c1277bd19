(** * The assertions on turns: ModelHCpmpmR.v *)
From Coq Require Import Reals List Lra Bool.
From Verif Require Import Base ModelUtil ModelCircle ModelPaths ModelAsserts ModelHCpmpmR Num PlanProofs AssertTac.
Import ListNotations.
Open Scope R_scope.

Lemma table_asserts (k s : R) c1 c2 t e : curved_end k c1 -> curved_end k c2 -> In (t, e) (combine hc_cc_rs_types (circles_table k s c1 c2)) ->
  asserts_HCpmpmR (mkHPath t (c_start c1) (c_start c2) e).
Proof.
  intros (K1 & Q1 & S1) (K2 & Q2 & S2) IN. unfold circles_table in IN. cbv zeta in IN.
  repeat match type of IN with context [if ?x then _ else _] => destruct x end; cbn [hc_cc_rs_types combine In] in IN;
  repeat match goal with IN : _ \/ _ |- _ => destruct IN as [IN|IN] | IN : False |- _ => destruct IN end;
  apply pair_equal_spec in IN; destruct IN as [<- <-]; try exact I.
  all: try (cbn [asserts_HCpmpmR h_type h_entry h_end h_start given e_cstart e_cend]; solve [asserts]).
  all: try (family; cbn [asserts_HCpmpmR h_type h_entry h_end h_start given e_qi1 e_qi2 e_qi3 e_qi4 e_cstart e_cend e_ci1 e_ci2]; repeat step; asserts).
Qed.
Lemma hcpmpm_reeds_shepp_asserts (k s : R) s1 s2 p : hcpmpm_reeds_shepp k s s1 s2 = Some p -> asserts_HCpmpmR p.
Proof.
  intros P. apply select_path_in in P. unfold paths in P. apply paths_in in P. destruct P as (i & j & c1 & c2 & _ & N1 & N2 & S).
  assert (E1 : curved_end k c1) by (apply nth_error_In in N1; unfold start_circles in N1; ends).
  assert (E2 : curved_end k c2) by (apply nth_error_In in N2; unfold end_circles in N2; ends).
  unfold hcpmpm_circles_rs_path in S. apply select_entry_in in S. destruct S as (IN & ST & EN). destruct p as [t u v e]. cbn [h_type h_entry h_start h_end] in *. subst u v.
  exact (table_asserts k s c1 c2 t e E1 E2 IN).
Qed.
