(** Concrete C++ trajectories: cases of the theorems, and counterexamples. *)
From Coq Require Import String.
From Coquelicot Require Import Coquelicot.
From Verif Require Import Base BaseLemmas FaModel FaProofs2 TrajModel TrajSpec TrajProofs TrajProofs2 TrajProofs3 TrajProofs4 TrajProofs6 TrajExamples.
From Verif Require Import CppTrajModel CppTrajSpec CppTrajProofs CppTrajProofs2 CppTrajProofs3.
Open Scope R_scope.

(** the nearest multiple of u exists *)
Definition nearest (u x : R) : R := IZR (up (x / u - 1 / 2)) * u.
Lemma nearest_ok u : 0 < u -> decimals u (nearest u).
Proof.
  intros Hu x. exists (up (x / u - 1 / 2)). split; [reflexivity|]. unfold nearest. destruct (archimed (x / u - 1 / 2)) as (A & B). set (z := IZR (up (x / u - 1 / 2))) in *.
  replace (z * u - x) with ((z - x / u) * u) by (field; lra). rewrite Rabs_mult, (Rabs_right u) by lra. assert (Rabs (z - x / u) <= 1 / 2) by (apply Rabs_le; lra). nra.
Qed.

(** two trajectories that meet at time 2 *)
Definition ex_c : ctraj := CTraj (0 :: 1 :: 2 :: nil) (Mat 1 ((0 :: nil) :: (1 :: nil) :: (3 :: nil) :: nil)) (Mat 1 ((1 :: nil) :: (1.5 :: nil) :: (2 :: nil) :: nil))
  (Mat 1 ((0.5 :: nil) :: (0.5 :: nil) :: (0.5 :: nil) :: nil)) (Mat 2 ((7 :: 8 :: nil) :: (9 :: 10 :: nil) :: (11 :: 12 :: nil) :: nil)).
Definition ex_d : ctraj := CTraj (2 :: 4 :: nil) (Mat 1 ((3 :: nil) :: (5 :: nil) :: nil)) (Mat 1 ((2 :: nil) :: (0 :: nil) :: nil))
  (Mat 1 ((0.5 :: nil) :: (0 :: nil) :: nil)) (Mat 2 ((1 :: 2 :: nil) :: (3 :: 4 :: nil) :: nil)).
Lemma ex_c_ok : c_consistent 3 1 2 ex_c.
Proof. split; [reflexivity|]. split; [samp|]. split; [samp|]. split; samp. Qed.
Lemma ex_d_ok : c_consistent 2 1 2 ex_d.
Proof. split; [reflexivity|]. split; [samp|]. split; [samp|]. split; samp. Qed.
Lemma ex_meet : meets 3 1 ex_c ex_d.
Proof. split; [reflexivity|]. intros i Hi. destruct i; [|lia]. repeat split; reflexivity. Qed.

(** four steps of one second, via-point at the third *)
Definition steps4 : list R := 0 :: 1 :: 2 :: 3 :: nil.
Lemma steps4_inc : increasing steps4.
Proof. intros i j Hij Hj. cbn in Hj. assert (j = 1 \/ j = 2 \/ j = 3)%nat as [->|[->| ->]] by lia; destruct i as [|[|[|i]]]; try lia; cbn; lra. Qed.
Lemma viapoint_half : exists c, c_viapoint false steps4 (0 :: nil) (1 :: 0 :: 0 :: nil) 1.5 (1 :: nil) = Ok c /\ at2 (ct_ys c) 1 0 = 1 / 2.
Proof.
  unfold c_viapoint. rewrite (steps_before_spec steps4 1.5 2 steps4_inc) by (cbn; try lia; lra). unfold steps4. cbn [length Nat.eqb must bind Nat.mul Nat.add Nat.leb].
  unfold c_polynomial. cbn [length repeat firstn skipn app Nat.add forallb Nat.eqb andb must bind last].
  destruct (Req_EM_T (2 - 0) 0); [lra|]. destruct (Req_EM_T (3 - 2) 0); [lra|]. eexists. split; [reflexivity|]. cbn. lra.
Qed.
(** six steps, a quick first part and a slow second one *)
Definition steps6 : list R := 0 :: 1 :: 2 :: 3 :: 4 :: 5 :: nil.
Lemma steps6_inc : increasing steps6.
Proof.
  intros i j Hij Hj. cbn in Hj. assert (j = 1 \/ j = 2 \/ j = 3 \/ j = 4 \/ j = 5)%nat as [->|[->|[->|[->| ->]]]] by lia; destruct i as [|[|[|[|[|i]]]]]; try lia; cbn; lra.
Qed.
