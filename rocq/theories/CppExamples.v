(** Concrete DMPs which meet the hypotheses of the theorems about the C++ counterpart. *)
From Coq Require Import String.
From Verif Require Import Base BaseLemmas DynModel DynSpec DynProofs ParamModel FaModel TrajModel DmpModel DmpSpec DmpProofs5 DmpExamples CppModel CppSpec CppProofs CppProofs2 CppProofs5 CppProofs7 CppProofs8.
Open Scope string_scope.
Open Scope R_scope.

(** a DMP trained on a demonstration, with two function approximators of different classes to choose from *)
Definition ex_kinds : nat -> fa_kind := fun i => match i with O => KRbfn | _ => KLwr end.
Lemma ex_trained_good : exists m, from_traj (py_predict exp ex_kinds) (trainer ex_kinds (fun _ => 3%nat) (fun _ => 0.7) (fun _ => 1)) Countdown
    ex_demo (Some [new_fa []]) no_kw = Ok m /\ good exp ex_kinds 1 m.
Proof.
  assert (K : forall i, ex_kinds i <> KOther) by (intros [|i]; discriminate).
  assert (P : plain_kw no_kw) by (do 5 (split; [reflexivity|]); now exists 20).
  assert (H1 : forall i : nat, (0 < (fun _ : nat => 3) i)%nat) by (intros; cbn; lia).
  assert (H2 : forall i : nat, 0 < (fun _ : nat => 0.7) i < 1) by (intros; cbn beta; lra).
  assert (H3 : forall i : nat, 0 < (fun _ : nat => 1) i) by (intros; cbn beta; lra).
  assert (H4 : forall i : nat, 0 <= (fun _ : nat => 1) i) by (intros; cbn beta; lra).
  assert (L1 : 0 < last (tj_ts ex_demo) 0) by (cbn; lra). assert (L2 : hd 0 (tj_ts ex_demo) < last (tj_ts ex_demo) 0) by (cbn; lra).
  assert (L3 : (tj_dim ex_demo <= length [new_fa []])%nat) by (cbn; lia). assert (L4 : Forall (fun f => is_trained f = false) [new_fa []]) by repeat constructor.
  destruct (from_traj_ok ex_kinds _ _ _ K H1 H2 H3 Countdown ex_demo [new_fa []] no_kw (or_intror eq_refl) P eq_refl ex_is_demo L1 L2 L3 L4) as [m E].
  exists m. split; [exact E|].
  exact (trained_good ex_kinds _ _ _ H1 H2 H4 Countdown ex_demo [new_fa []] no_kw m (or_intror eq_refl) P ex_is_demo L1 L2 L3 L4 E).
Qed.

(** a trained function approximator *)
Definition ex_rbf : fa :=
  Fa [("centers", PArr (Arr [1; 1]%nat [0])); ("widths", PArr (Arr [1; 1]%nat [1])); ("weights", PArr (Arr [1; 1]%nat [0.5]))] (Some 1%nat) None.
Lemma ex_rbf_portable : fa_portable KRbfn ex_rbf.
Proof.
  split; [reflexivity|]. exists 1%nat. split; [lia|]. repeat constructor; eexists; split; reflexivity.
Qed.
