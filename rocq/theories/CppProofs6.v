(** Proofs about the C++ counterpart: DMPs trained by Python can be used in C++. *)
From Coq Require Import String.
From Verif Require Import Base BaseLemmas DynModel DynSpec DynProofs DynProofs2 ParamModel FaModel FaSpec FaProofs FaProofs7 FaProofs8 TrajModel DmpModel DmpSpec DmpProofs DmpProofs2 DmpProofs3 DmpProofs5 DmpProofs6 DmpProofs9 DmpProofs14 CppModel CppSpec CppProofs CppProofs2 CppProofs3 CppProofs5.
Open Scope string_scope.
Open Scope R_scope.

(** *** function approximators *)
Lemma concat_one (C : list (list R)) : Forall (fun r => length r = 1%nat) C -> length (List.concat C) = length C.
Proof. induction 1 as [|r C H _ IH]; cbn; [reflexivity|]. rewrite app_length, IH, H. reflexivity. Qed.
Lemma mat_column C : Forall (fun r => length r = 1%nat) C -> mat_arr (Mat 1 C) = Arr [length C; 1%nat] (List.concat C).
Proof. reflexivity. Qed.
Lemma spread_one phs k : (exists a b, In a phs /\ In b phs /\ a <> b) \/ k = 1%nat -> spread 1 (map (fun v => [v]) phs) [k].
Proof.
  intros H j Hj. replace j with 0%nat by lia. destruct H as [(a & b & Ha & Hb & N)|E]; [right|now left].
  exists [a], [b]. split; [now apply (in_map (fun v => [v]))|]. split; [now apply (in_map (fun v => [v]))|]. exact N.
Qed.
Lemma rbfn_portable phs ys k h lam ps : phs <> [] -> length ys = length phs -> (0 < k)%nat ->
  (exists a b, In a phs /\ In b phs /\ a <> b) \/ k = 1%nat -> 0 < h < 1 -> 0 <= lam ->
  rbfn_train exp [k] h lam (In1 ys) (Mat 1 (map (fun v => [v]) phs)) = Ok ps ->
  (forall sel, fa_portable KRbfn (Fa ps (Some 1%nat) sel)) /\ forall ph, exists v, rbfn_predict exp ps (Mat 1 [[ph]]) = Ok [v].
Proof.
  intros NE Ly Hk Sp Hh Hl E. set (xs := map (fun v => [v]) phs).
  assert (S : samples 1 xs) by (split; [unfold xs; destruct phs; [contradiction|discriminate]|unfold xs; apply Forall_map, Forall_forall; reflexivity]).
  assert (P : per_dim 1 [k]) by (split; [reflexivity|repeat constructor; trivial]).
  pose proof (spread_one phs k Sp) as Sp'. fold xs in Sp'. fold xs in E.
  assert (Lx : length ys = length xs) by (unfold xs; now rewrite map_length).
  destruct (rbfn_fit 1 xs [k] h lam ys (In1 ys) S ltac:(lia) P Sp' Hh Hl Lx (or_introl eq_refl) ps E) as (C & W & ws & B & Lw & -> & _).
  split.
  - intros sel. split; [reflexivity|]. exists (length C). split; [exact (bs_pos _ _ _ _ _ _ B)|]. cbn [f_model].
    repeat constructor; unfold rbfn_ps.
    + exists (List.concat C). split; [reflexivity|]. apply concat_one, B.
    + exists (List.concat W). split; [rewrite <- (bs_nW _ _ _ _ _ _ B); reflexivity|]. rewrite concat_one by apply B. apply B.
    + exists ws. split; [reflexivity|trivial].
  - intros ph. eexists. rewrite (rbfn_predict_ok 1 xs [k] h C W) by (trivial; repeat constructor). reflexivity.
Qed.
Lemma lwr_portable phs ys k h lam ps : phs <> [] -> length ys = length phs -> (0 < k)%nat ->
  (exists a b, In a phs /\ In b phs /\ a <> b) \/ k = 1%nat -> 0 < h < 1 ->
  lwr_train exp [k] h lam (In1 ys) (Mat 1 (map (fun v => [v]) phs)) = Ok ps ->
  (forall sel, fa_portable KLwr (Fa ps (Some 1%nat) sel)) /\ forall ph, exists v, lwr_predict exp ps (Mat 1 [[ph]]) = Ok [v].
Proof.
  intros NE Ly Hk Sp Hh E. set (xs := map (fun v => [v]) phs).
  assert (S : samples 1 xs) by (split; [unfold xs; destruct phs; [contradiction|discriminate]|unfold xs; apply Forall_map, Forall_forall; reflexivity]).
  assert (P : per_dim 1 [k]) by (split; [reflexivity|repeat constructor; trivial]).
  pose proof (spread_one phs k Sp) as Sp'. fold xs in Sp'. fold xs in E.
  assert (Lx : length ys = length xs) by (unfold xs; now rewrite map_length).
  destruct (basis_exists 1 xs [k] h S ltac:(lia) P Sp' Hh) as (C & W & B).
  destruct (lwr_fit 1 xs [k] h lam ys (In1 ys) S ltac:(lia) P Sp' Lx (or_introl eq_refl) (or_introl eq_refl) C W B ps E) as (lines & Ll & -> & Best).
  assert (FL : Forall (fun l => length (fst l) = 1%nat) lines).
  { apply Forall_forall. intros l Hl. destruct (In_nth _ _ ([], 0) Hl) as (j & Hj & <-). rewrite Ll in Hj. apply (Best j Hj). }
  split.
  - intros sel. split; [reflexivity|]. exists (length C). split; [exact (bs_pos _ _ _ _ _ _ B)|]. cbn [f_model].
    repeat constructor; unfold lwr_ps.
    + exists (List.concat C). split; [reflexivity|]. apply concat_one, B.
    + exists (List.concat W). split; [rewrite <- (bs_nW _ _ _ _ _ _ B); reflexivity|]. rewrite concat_one by apply B. apply B.
    + exists (List.concat (map fst lines)). split; [reflexivity|]. rewrite concat_one by now apply Forall_map. now rewrite map_length.
    + exists (map snd lines). split; [reflexivity|]. now rewrite map_length.
  - intros ph. eexists. rewrite (lwr_predict_ok 1 C W (basis_kset _ _ _ _ _ _ B)) by (trivial; repeat constructor). reflexivity.
Qed.

(** *** training *)
Section Train.
Variable kinds : nat -> fa_kind.
Variable ns : nat -> nat.
Variables h lam : nat -> R.
Hypothesis Hn : forall i, (0 < ns i)%nat.
Hypothesis Hh : forall i, 0 < h i < 1.
Hypothesis Hlam : forall i, 0 <= lam i.
Notation pf := (py_predict exp kinds).
Notation tf := (trainer kinds ns h lam).

Definition differ (phs : list R) : bool := existsb (fun a => existsb (fun b => if Req_EM_T a b then false else true) phs) phs.
Lemma differ_ok phs : differ phs = true -> exists a b, In a phs /\ In b phs /\ a <> b.
Proof.
  unfold differ. intros H. apply existsb_exists in H. destruct H as (a & Ha & H). apply existsb_exists in H. destruct H as (b & Hb & H).
  exists a, b. split; [trivial|]. split; [trivial|]. destruct (Req_EM_T a b); [discriminate|trivial].
Qed.
Lemma differ_intro phs a b : In a phs -> In b phs -> a <> b -> differ phs = true.
Proof.
  intros Ha Hb N. unfold differ. apply existsb_exists. exists a. split; [trivial|]. apply existsb_exists. exists b. split; [trivial|].
  destruct (Req_EM_T a b); [contradiction|reflexivity].
Qed.
(** training with data that make sense *)
Definition safe i (phs ys : list R) := if (differ phs && Nat.eqb (length ys) (length phs))%bool then tf i phs ys else Err Unmodelled.
Lemma safe_portable i phs ys ps : safe i phs ys = Ok ps ->
  (forall sel, fa_portable (kinds i) (Fa ps (Some 1%nat) sel)) /\ forall ph, exists v, pf i ps ph = Ok v.
Proof.
  unfold safe. destruct (differ phs) eqn:D; [|discriminate]. destruct (Nat.eqb_spec (length ys) (length phs)) as [L|]; [|discriminate].
  cbn [andb]. apply differ_ok in D. assert (NE : phs <> []) by (destruct D as (a & _ & Ha & _); intros E; rewrite E in Ha; exact Ha).
  unfold trainer, py_predict. destruct (kinds i); [| |discriminate]; intros E.
  - destruct (rbfn_portable phs ys (ns i) (h i) (lam i) ps NE L (Hn i) (or_introl D) (Hh i) (Hlam i) E) as [A B]. split; [exact A|].
    intros ph. destruct (B ph) as [v Ev]. exists v. now rewrite Ev.
  - destruct (lwr_portable phs ys (ns i) (h i) (lam i) ps NE L (Hn i) (or_introl D) (Hh i) E) as [A B]. split; [exact A|].
    intros ph. destruct (B ph) as [v Ev]. exists v. now rewrite Ev.
Qed.
Lemma safe_total : total_fit pf safe.
Proof. intros i phs ys ps E. exact (proj2 (safe_portable i phs ys ps E)). Qed.
End Train.
