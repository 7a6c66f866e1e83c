(** Concrete cases for the theorems about the ball-throwing task. *)
From Coq Require Import String.
From Verif Require Import Base BaseLemmas DynModel DynSpec ParamModel FaModel TrajModel DmpModel DmpSpec DmpExamples CppModel CppTrajModel CppSpec CppProofs2 CppProofs5 CppProofs7 CppProofs8 CppExamples
  ThrowModel ThrowSpec ThrowProofs ThrowProofs2 ThrowProofs3 ThrowProofs4.
Open Scope R_scope.

(** a demonstrated throw with two coordinates *)
Definition ex_throw : traj :=
  Traj [0; 1; 2; 3] (Some 1) 2 (Mat 2 [[0; 1]; [0; 1]; [1; 2]; [3; 4]]) (Mat 2 [[0; 0]; [1; 1]; [2; 2]; [3; 3]]) (Mat 2 [[1; 1]; [1; 1]; [1; 1]; [1; 1]]) None.
Lemma ex_throw_demo : demo 2 ex_throw.
Proof. repeat split; repeat constructor. Qed.
Lemma ex_throw_good : exists m, from_traj (py_predict exp ex_kinds) (trainer ex_kinds (fun _ => 3%nat) (fun _ => 0.7) (fun _ => 1)) Countdown
    ex_throw (Some [new_fa []; new_fa []]) no_kw = Ok m /\ good exp ex_kinds 2 m.
Proof.
  assert (K : forall i, ex_kinds i <> KOther) by (intros [|i]; discriminate).
  assert (P : plain_kw no_kw) by (do 5 (split; [reflexivity|]); now exists 20).
  assert (H1 : forall i : nat, (0 < (fun _ : nat => 3) i)%nat) by (intros; cbn; lia).
  assert (H2 : forall i : nat, 0 < (fun _ : nat => 0.7) i < 1) by (intros; cbn beta; lra).
  assert (H3 : forall i : nat, 0 < (fun _ : nat => 1) i) by (intros; cbn beta; lra).
  assert (H4 : forall i : nat, 0 <= (fun _ : nat => 1) i) by (intros; cbn beta; lra).
  assert (L1 : 0 < last (tj_ts ex_throw) 0) by (cbn; lra). assert (L2 : hd 0 (tj_ts ex_throw) < last (tj_ts ex_throw) 0) by (cbn; lra).
  assert (L3 : (tj_dim ex_throw <= length [new_fa []; new_fa []])%nat) by (cbn; lia). assert (L4 : Forall (fun f => is_trained f = false) [new_fa []; new_fa []]) by repeat constructor.
  destruct (from_traj_ok ex_kinds _ _ _ K H1 H2 H3 Countdown ex_throw [new_fa []; new_fa []] no_kw (or_intror eq_refl) P eq_refl ex_throw_demo L1 L2 L3 L4) as [m E].
  exists m. split; [exact E|].
  exact (trained_good ex_kinds _ _ _ H1 H2 H4 Countdown ex_throw [new_fa []; new_fa []] no_kw m (or_intror eq_refl) P ex_throw_demo L1 L2 L3 L4 E).
Qed.
(** a trajectory with samples every 0.4 seconds: the ball is released at the third one *)
Definition ex_move (k : nat) : hand := ([INR k; 0], [1; 2], [0; 0]).
Definition ex_ctraj : ctraj := CTraj [1; 1.4; 1.8; 2.2] (Mat 2 [[0; 0]; [1; 0]; [2; 0]; [3; 0]]) (Mat 2 [[1; 2]; [1; 2]; [1; 2]; [1; 2]]) (Mat 2 [[0; 0]; [0; 0]; [0; 0]; [0; 0]]) (Mat 0 []).
Lemma ex_released : released 0.4 2.
Proof. split; [lia|]. split; [cbn; lra|]. intros k Hk. assert (k = 1%nat) as -> by lia. cbn. lra. Qed.
