(** The error function of the air-drag model. *)
From Coq Require Import Reals Lra.
From Coquelicot Require Import Coquelicot.
From Verif Require Import DisturbanceModel.
Open Scope R_scope.

Definition gauss (t : R) : R := exp (- (t * t)).
Lemma gauss_continuous x : continuous gauss x.
Proof. apply (ex_derive_continuous gauss). unfold gauss. auto_derive. exact I. Qed.
Lemma gauss_int a b : ex_RInt gauss a b.
Proof. apply (ex_RInt_continuous gauss). intros z _. apply gauss_continuous. Qed.
Lemma sqrt_pi_pos : 0 < sqrt PI. Proof. apply sqrt_lt_R0. apply PI_RGT_0. Qed.
Lemma erf_0 : erf 0 = 0.
Proof. unfold erf. change (@RInt.RInt Hierarchy.R_CompleteNormedModule) with (@RInt R_CompleteNormedModule). rewrite RInt_point. change (@zero R_CompleteNormedModule) with 0. ring. Qed.
Lemma erf_derivative x : derivable_pt_lim erf x (2 / sqrt PI * exp (- (x * x))).
Proof.
  apply is_derive_Reals. unfold erf. change (is_derive (fun x => scal (2 / sqrt PI) (RInt gauss 0 x)) x (scal (2 / sqrt PI) (gauss x))).
  apply is_derive_scal. apply (is_derive_RInt gauss _ 0). 2: apply gauss_continuous.
  exists (mkposreal 1 Rlt_0_1). intros y _. apply (RInt_correct gauss). apply gauss_int.
Qed.
Lemma erf_nonneg x : 0 <= x -> 0 <= erf x.
Proof.
  intro H. unfold erf. pose proof sqrt_pi_pos as P. apply Rmult_le_pos. { apply Rdiv_le_0_compat; lra. }
  change (0 <= RInt gauss 0 x). apply RInt_ge_0; [exact H|apply gauss_int|]. intros t _. apply Rlt_le, exp_pos.
Qed.
