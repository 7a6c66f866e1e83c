(** Proofs about improvement by updates: sums, convex combinations and weights. *)
From Coq Require Import String.
From Verif Require Import Base BaseLemmas DynModel UpdatersModel UpdatersSpec UpdatersProofs UpdatersProofs2 UpdatersProofs3 UpdatersProofs4 OptModel OptSpec.
Open Scope R_scope.

(** ** Chebyshev's inequality for sums in opposite order *)
Lemma double_sum n (a b : nat -> R) :
  sumn n (fun i => sumn n (fun j => (a i - a j) * (b i - b j))) = 2 * (INR n * sumn n (fun i => a i * b i) - sumn n a * sumn n b).
Proof.
  rewrite (sumn_ext n _ (fun i => INR n * (a i * b i) + sumn n (fun j => a j * b j) - (a i * sumn n b + b i * sumn n a))).
  2:{ intros i _. rewrite <- !sumn_scal. rewrite <- (sumn_const n (a i * b i)), <- sumn_plus, <- sumn_plus, <- sumn_minus. apply sumn_ext. intros j _. ring. }
  rewrite sumn_minus, sumn_plus, sumn_plus, sumn_scal, sumn_const, !sumn_scal_r. ring.
Qed.
Lemma chebyshev n (a b : nat -> R) : (forall i j, (i < n)%nat -> (j < n)%nat -> (a i - a j) * (b i - b j) <= 0) ->
  INR n * sumn n (fun i => a i * b i) <= sumn n a * sumn n b.
Proof.
  intros H. pose proof (double_sum n a b) as E.
  assert (sumn n (fun i => sumn n (fun j => (a i - a j) * (b i - b j))) <= 0).
  { rewrite <- (Rmult_0_r (INR n)), <- (sumn_const n 0). apply sumn_le. intros i Hi.
    rewrite <- (Rmult_0_r (INR n)), <- (sumn_const n 0). apply sumn_le. intros j Hj. now apply H. }
  lra.
Qed.
Lemma sumn_le_strict n f g k : (forall i, (i < n)%nat -> f i <= g i) -> (k < n)%nat -> f k < g k -> sumn n f < sumn n g.
Proof.
  induction n as [|n IH]; intros H Hk Hl; [lia|]. cbn. destruct (Nat.eq_dec k n) as [->|].
  - pose proof (sumn_le n f g ltac:(intros; apply H; lia)). lra.
  - assert (sumn n f < sumn n g) by (apply IH; [intros; apply H; lia|lia|exact Hl]). specialize (H n ltac:(lia)). lra.
Qed.
Lemma chebyshev_strict n (a b : nat -> R) k l : (forall i j, (i < n)%nat -> (j < n)%nat -> (a i - a j) * (b i - b j) <= 0) ->
  (k < n)%nat -> (l < n)%nat -> (a k - a l) * (b k - b l) < 0 -> INR n * sumn n (fun i => a i * b i) < sumn n a * sumn n b.
Proof.
  intros H Hk Hl Hs. pose proof (double_sum n a b) as E.
  assert (sumn n (fun i => sumn n (fun j => (a i - a j) * (b i - b j))) < 0).
  { rewrite <- (Rmult_0_r (INR n)), <- (sumn_const n 0). apply (sumn_le_strict n _ _ k); [|exact Hk|].
    - intros i Hi. rewrite <- (Rmult_0_r (INR n)), <- (sumn_const n 0). apply sumn_le. intros j Hj. now apply H.
    - rewrite <- (Rmult_0_r (INR n)), <- (sumn_const n 0). apply (sumn_le_strict n _ _ l); [|exact Hl|exact Hs]. intros j Hj. now apply H. }
  lra.
Qed.

(** ** weights *)
Section W.
Variable argsort : list R -> list nat.
Hypothesis Hsort : argsort_ok argsort.
Lemma totals_length costs cs : totals costs cs -> length cs = length costs.
Proof. intros H. induction H; cbn; congruence. Qed.
Lemma opposite costs cs m e w : totals costs cs -> prefers_low m e -> costs_to_weights argsort costs m e = Ok w ->
  forall i j, (i < length cs)%nat -> (j < length cs)%nat -> (nth i w 0 - nth j w 0) * (nth i cs 0 - nth j cs 0) <= 0.
Proof.
  intros T P E i j Hi Hj. destruct (Rtotal_order (nth i cs 0) (nth j cs 0)) as [L|[L|L]]; [|rewrite L; lra|].
  - assert (nth j w 0 <= nth i w 0); [|nra]. destruct (rank_dec m) as [Rm|Rm].
    + now apply (rank_monotone argsort Hsort costs cs m e w i j).
    + destruct P as [P|P]; [contradiction|]. apply (pibb_monotone argsort costs cs m e w i j); trivial. lra.
  - assert (nth i w 0 <= nth j w 0); [|nra]. destruct (rank_dec m) as [Rm|Rm].
    + apply (rank_monotone argsort Hsort costs cs m e w j i); trivial.
    + destruct P as [P|P]; [contradiction|]. apply (pibb_monotone argsort costs cs m e w j i); trivial. lra.
Qed.
Lemma weighted_le costs cs m e w : costs <> [] -> totals costs cs -> prefers_low m e -> costs_to_weights argsort costs m e = Ok w ->
  weighted w cs <= average cs.
Proof.
  intros N T P E. pose proof (totals_length _ _ T) as L. destruct (weights_simplex_if_ok argsort Hsort costs m e w N E) as (Lw & _ & Sw).
  pose proof (chebyshev (length cs) (fun i => nth i w 0) (fun i => nth i cs 0) (opposite costs cs m e w T P E)) as C. cbv beta in C.
  rewrite rsum_nth, Lw, <- L in Sw. rewrite Sw in C. unfold weighted, average.
  assert (Hn : 0 < INR (length cs)). { apply lt_0_INR. destruct costs; [congruence|]. cbn in L. lia. }
  apply (Rmult_le_reg_l (INR (length cs))); [exact Hn|]. unfold Rdiv. rewrite (Rmult_comm (sumn _ _)), <- Rmult_assoc, Rinv_r by lra. lra.
Qed.
Lemma weighted_lt costs cs m e w i j : totals costs cs -> ~ rank_method m -> 0 < elit_R e -> costs_to_weights argsort costs m e = Ok w ->
  (i < length cs)%nat -> (j < length cs)%nat -> nth i cs 0 < nth j cs 0 -> weighted w cs < average cs.
Proof.
  intros T Rm P E Hi Hj Hl. pose proof (totals_length _ _ T) as L. assert (N : costs <> []) by (intros ->; cbn in L; lia).
  destruct (weights_simplex_if_ok argsort Hsort costs m e w N E) as (Lw & _ & Sw).
  pose proof (chebyshev_strict (length cs) (fun i => nth i w 0) (fun i => nth i cs 0) i j (opposite costs cs m e w T ltac:(right; lra) E) Hi Hj) as C. cbv beta in C.
  destruct (pibb_monotone argsort costs cs m e w i j Rm T ltac:(lra) E Hi Hj) as (_ & _ & M). specialize (M P Hl).
  specialize (C ltac:(nra)). rewrite rsum_nth, Lw, <- L in Sw. rewrite Sw in C. unfold weighted, average.
  assert (Hn : 0 < INR (length cs)) by (apply lt_0_INR; lia).
  apply (Rmult_lt_reg_l (INR (length cs))); [exact Hn|]. unfold Rdiv. rewrite (Rmult_comm (sumn _ _)), <- Rmult_assoc, Rinv_r by lra. lra.
Qed.
End W.
