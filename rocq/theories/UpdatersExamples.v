(** Concrete cases used to show that the hypotheses of the updater theorems can be met, and the
    counter-example for C12. *)
From Coq Require Import String.
From Verif Require Import Base BaseLemmas UpdatersModel UpdatersSpec UpdatersProofs UpdatersProofs2
  UpdatersProofs3 UpdatersProofs4 UpdatersProofs5.
Open Scope R_scope.

(** an argsort that meets the contract: insertion sort on (value, index) pairs *)
Fixpoint insert (p : R * nat) (l : list (R * nat)) : list (R * nat) :=
  match l with
  | [] => [p]
  | q :: l' => if Rle_dec (fst p) (fst q) then p :: l else q :: insert p l'
  end.
Definition isort (l : list (R * nat)) : list (R * nat) := fold_right insert [] l.
Definition my_argsort (costs : list R) : list nat :=
  map snd (isort (combine costs (seq 0 (length costs)))).

Lemma insert_perm p l : Permutation (insert p l) (p :: l).
Proof.
  induction l as [|q l IH]; cbn; [reflexivity|]. destruct (Rle_dec (fst p) (fst q)); [reflexivity|].
  rewrite IH. apply perm_swap.
Qed.
Lemma isort_perm l : Permutation (isort l) l.
Proof. induction l as [|p l IH]; cbn; [reflexivity|]. rewrite insert_perm. now constructor. Qed.

Fixpoint srt (l : list (R * nat)) : Prop :=
  match l with [] => True | p :: l' => Forall (fun q => fst p <= fst q) l' /\ srt l' end.
Lemma insert_srt p l : srt l -> srt (insert p l).
Proof.
  induction l as [|q l IH]; cbn; [auto|]. intros [Hf Hs]. destruct (Rle_dec (fst p) (fst q)) as [H|H].
  - cbn. repeat split; auto. constructor; [exact H|]. eapply Forall_impl; [|exact Hf]. cbn; intros; lra.
  - cbn. split; [|auto]. rewrite Forall_forall in *. intros x Hx.
    apply (Permutation_in _ (insert_perm p l)) in Hx. destruct Hx as [<-|Hx]; [lra|auto].
Qed.
Lemma isort_srt l : srt (isort l).
Proof. induction l as [|p l IH]; cbn; [exact I|]. now apply insert_srt. Qed.
Lemma srt_nth l a b : srt l -> (a <= b < length l)%nat -> fst (nth a l (0, 0%nat)) <= fst (nth b l (0, 0%nat)).
Proof.
  revert a b; induction l as [|p l IH]; cbn; intros a b Hsr H; [lia|]. destruct Hsr as [Hf Hs].
  destruct a as [|a], b as [|b]; cbn; try lia; [lra| |apply IH; auto; lia].
  rewrite Forall_forall in Hf. apply Hf. apply nth_In. lia.
Qed.

Lemma my_argsort_ok : argsort_ok my_argsort.
Proof.
  intros cs. unfold sorts, my_argsort. set (l := combine cs (seq 0 (length cs))).
  assert (Hl : length l = length cs) by (unfold l; rewrite combine_length, seq_length; lia).
  assert (Hs : map snd l = seq 0 (length cs)).
  { unfold l. clear. generalize 0%nat. induction cs as [|c cs IH]; intros k; cbn; [reflexivity|].
    f_equal. apply IH. }
  split.
  - rewrite <- Hs. apply Permutation_map, isort_perm.
  - intros a b Hab.
    assert (Hlen : length (isort l) = length cs) by (rewrite (Permutation_length (isort_perm l)); auto).
    assert (Hval : forall r, (r < length cs)%nat ->
      nth (nth r (map snd (isort l)) 0%nat) cs 0 = fst (nth r (isort l) (0, 0%nat))).
    { intros r Hr. change 0%nat with (snd (0, 0%nat)) at 1. rewrite map_nth.
      assert (Hin : In (nth r (isort l) (0, 0%nat)) l).
      { apply (Permutation_in _ (isort_perm l)). apply nth_In. lia. }
      destruct (In_nth _ _ (0, 0%nat) Hin) as (i & Hi & E). rewrite <- E. unfold l in *.
      rewrite combine_nth by (now rewrite seq_length). cbn [fst snd]. rewrite seq_nth by lia.
      reflexivity. }
    rewrite !Hval by lia. apply srt_nth; [apply isort_srt|lia].
Qed.

(** three two-dimensional samples with vector and scalar costs *)
Definition ex_samples : mat := Mat 2 [[0; 1]; [2; 3]; [4; -1]].
Definition ex_costs : list cost := [CVec [3; 1; 2]; CScalar 1; CVec [2]].
Definition ex_dist : dist := Dist [0; 0] (Mat 2 [[1; 0]; [0; 1]]) None.
Definition ex_adapt : covar_adapt :=
  CovarAdapt "CMA-ES" (EInt 2) None (Some (LScal (1/2))) false (1/2).

Lemma ex_totals : totals ex_costs [3; 1; 2].
Proof.
  apply Forall2_cons; [right; eauto|]. apply Forall2_cons; [now left|].
  apply Forall2_cons; [right; eauto|]. constructor.
Qed.
Lemma ex_no_empty : ~ In (CVec []) ex_costs.
Proof. intros [H|[H|[H|[]]]]; discriminate. Qed.
Lemma ex_wf : mat_wf ex_samples.
Proof. repeat constructor. Qed.
Lemma ex_adm m e : m = "PI-BB"%string \/ e = EInt 2 -> admissible m e (length ex_costs).
Proof.
  intros [->| ->]; split; intros H; try discriminate; exists 2%Z; (split; [reflexivity|]); cbn; lia.
Qed.
Lemma ex_distinct : NoDup [3; 1; 2].
Proof. repeat constructor; cbn; intros H; repeat destruct H as [H|H]; try lra; try contradiction. Qed.

Lemma ex_square : square 2 (d_covar ex_dist).
Proof. repeat split. repeat constructor. Qed.
Lemma ex_psd : psd 2 (d_covar ex_dist).
Proof.
  split.
  - intros i j Hi Hj. destruct i as [|[|i]], j as [|[|j]]; try lia; reflexivity.
  - intros v. unfold quad, mget. cbn. nra.
Qed.

Lemma ex_weights_ok : forall m e, m = "PI-BB"%string \/ e = EInt 2 ->
  exists w, costs_to_weights my_argsort ex_costs m e = Ok w.
Proof.
  intros m e H. destruct (weights_admissible_ok my_argsort my_argsort_ok ex_costs m e) as (w & Hw & _);
    eauto using ex_no_empty, ex_adm. discriminate.
Qed.
Lemma ex_update_ok : forall u, u_elit u = EInt 2 ->
  (forall a, u <> UAdapt a) -> exists d' w, update_distribution my_argsort u ex_dist ex_samples ex_costs = Ok (d', w).
Proof.
  intros u Hu Ha. apply update_mean_decay_ok; auto using my_argsort_ok, ex_no_empty; [discriminate|].
  apply ex_adm; auto.
Qed.
Lemma ex_adapt_ok : exists d' w,
  update_distribution my_argsort (UAdapt ex_adapt) ex_dist ex_samples ex_costs = Ok (d', w).
Proof.
  apply update_adapt_ok; auto using my_argsort_ok, ex_no_empty; try discriminate.
  - apply ex_adm; auto.
  - apply ex_square.
  - exact I.
  - exact I.
Qed.

Lemma history_one argsort u d s c d' w :
  update_distribution argsort u d s c = Ok (d', w) -> update_history argsort u d [(s, c)] = Ok d'.
Proof. intros H. cbn. rewrite H. reflexivity. Qed.

(** ** C12 counter-example: one sample (1,1), mean (0,0), identity covariance, diagonal_max 1/2 *)
Definition bad_adapt : covar_adapt := CovarAdapt "PI-BB" (EInt 10) (Some (LScal (1/2))) None false 1.

Lemma adapt_psd_refuted : forall argsort, argsort_ok argsort ->
  exists d' w,
    update_distribution argsort (UAdapt bad_adapt) ex_dist (Mat 2 [[1; 1]]) [CScalar 0] = Ok (d', w) /\
    ~ psd 2 (d_covar d').
Proof.
  intros argsort Ha.
  destruct (update_adapt_ok argsort Ha bad_adapt ex_dist (Mat 2 [[1; 1]]) [CScalar 0]) as (d' & w & H).
  - discriminate.
  - intros [E|[]]; discriminate.
  - split; intros E; discriminate.
  - reflexivity.
  - reflexivity.
  - apply ex_square.
  - exact I.
  - exact I.
  - exists d', w. split; [exact H|].
    pose proof (update_mean_formula argsort Ha _ _ _ _ _ _ H) as (Hw & _).
    destruct (adapt_full argsort Ha bad_adapt ex_dist (Mat 2 [[1; 1]]) [CScalar 0] d' w) as (_ & Hsq & Hoff & Hdiag).
    + repeat constructor.
    + intros _. apply ex_square.
    + cbn; lra.
    + exact H.
    + destruct Hw as (Hl & _ & Hs). cbn in Hl. destruct w as [|w0 [|]]; try discriminate. cbn in Hs.
      assert (w0 = 1) by lra. subst w0. clear Hs Hl.
      assert (O1 := Hoff 0%nat 1%nat ltac:(cbn; lia) ltac:(cbn; lia) ltac:(lia)).
      assert (O2 := Hoff 1%nat 0%nat ltac:(cbn; lia) ltac:(cbn; lia) ltac:(lia)).
      destruct (Hdiag 0%nat ltac:(cbn; lia)) as (x0 & (m0 & E0 & D0) & F0).
      destruct (Hdiag 1%nat ltac:(cbn; lia)) as (x1 & (m1 & E1 & D1) & F1).
      cbn in E0, E1. injection E0 as <-. injection E1 as <-. cbn in F0, F1.
      unfold adapted, ex_dist, bad_adapt, mget, nrows in *. cbn -[Rmin pow] in *.
      intros [_ Hq]. specialize (Hq (fun i => if Nat.eqb i 0 then 1 else -1)).
      unfold quad, mget in Hq. cbn in Hq.
      assert (x0 <= 1/4) by (rewrite D0; eapply Rle_trans; [apply Rmin_r|]; lra).
      assert (x1 <= 1/4) by (rewrite D1; eapply Rle_trans; [apply Rmin_r|]; lra).
      rewrite <- F0 in *. rewrite <- F1 in *. nra.
Qed.
