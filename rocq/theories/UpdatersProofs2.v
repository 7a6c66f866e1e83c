From Coq Require Import String.
From Verif Require Import Base BaseLemmas UpdatersModel UpdatersSpec UpdatersProofs.
Open Scope R_scope.

Section Weights.
Variable argsort : list R -> list nat.
Hypothesis Ha : argsort_ok argsort.

Lemma totals_or_empty costs : (exists cs, totals costs cs /\ ~ In (CVec []) costs) \/ In (CVec []) costs.
Proof.
  destruct (mapM first_cost costs) as [cs|e] eqn:E.
  - left. exists cs. split; [now apply mapM_first_totals|]. intros H.
    apply mapM_first_in_empty in H. congruence.
  - right. now destruct (mapM_first_err _ _ E).
Qed.

Lemma ctw_empty_entry costs m e : In (CVec []) costs -> costs_to_weights argsort costs m e = Err IndexError.
Proof. intros H. unfold costs_to_weights. now rewrite mapM_first_in_empty. Qed.

Lemma ctw_cem_eq costs cs e : totals costs cs ->
  costs_to_weights argsort costs "CEM" e = (let* w := cem_raw argsort e cs in normalize w).
Proof. intros H. unfold costs_to_weights. apply mapM_first_totals in H. rewrite H. reflexivity. Qed.
Lemma ctw_cma_eq costs cs e : totals costs cs ->
  costs_to_weights argsort costs "CMA-ES" e = (let* w := cmaes_raw argsort e cs in normalize w).
Proof. intros H. unfold costs_to_weights. apply mapM_first_totals in H. rewrite H. reflexivity. Qed.

Lemma ctw_pibb_nil m e : ~ rank_method m -> costs_to_weights argsort [] m e = Err ValueError.
Proof.
  intros Hm. unfold costs_to_weights. cbn [mapM bind].
  destruct (String.eqb_spec m "PI-BB"); [reflexivity|].
  destruct (String.eqb_spec m "CEM"); [exfalso; apply Hm; now left|].
  destruct (String.eqb_spec m "CMA-ES"); [exfalso; apply Hm; now right|]. reflexivity.
Qed.

Lemma cem_k_pos_iff z n : z <> 0%Z -> n <> 0%nat ->
  ((0 < cem_k z n)%nat <-> ~ (z < 0 /\ Z.of_nat n <= - z)%Z).
Proof. unfold cem_k. destruct (Z.leb_spec 0 z); lia. Qed.

Lemma ctw_cem_nonfinite costs cs z : totals costs cs -> cs <> [] -> (z < 0)%Z ->
  (Z.of_nat (length cs) <= - z)%Z -> costs_to_weights argsort costs "CEM" (EInt z) = Err NonFinite.
Proof.
  intros Hc Hne Hz Hn. rewrite (ctw_cem_eq _ _ _ Hc), cem_raw_eq by (auto; lia). cbn [bind].
  assert (cem_k z (length cs) = 0%nat) as ->.
  { unfold cem_k. destruct (Z.leb_spec 0 z); lia. }
  apply normalize_nonfinite.
  - intros E. apply Hne. apply length_zero_iff_nil. rewrite <- (rank_raw_length (argsort cs) (length cs) 0
      (fun _ => 1 / IZR z)). now rewrite E.
  - rewrite rank_raw_sum; [reflexivity|apply Ha|lia].
Qed.

Lemma ctw_cma_nonfinite costs cs z : totals costs cs -> cs <> [] -> (z <= 0)%Z ->
  costs_to_weights argsort costs "CMA-ES" (EInt z) = Err NonFinite.
Proof.
  intros Hc Hne Hz. rewrite (ctw_cma_eq _ _ _ Hc), cmaes_raw_ok by (auto; lia). cbn [bind].
  replace (Z.to_nat z) with 0%nat by lia. apply normalize_nonfinite.
  - intros E. apply Hne. apply length_zero_iff_nil. rewrite <- (rank_raw_length (argsort cs) (length cs) 0
      (cma_V z)). now rewrite E.
  - rewrite rank_raw_sum; [reflexivity|apply Ha|lia].
Qed.

Lemma ctw_cem_nil z : z <> 0%Z -> costs_to_weights argsort [] "CEM" (EInt z) = Ok [].
Proof.
  intros Hz. rewrite (ctw_cem_eq [] []) by constructor. rewrite cem_raw_eq by auto.
  cbn [bind length]. unfold rank_raw, cem_k. destruct (0 <=? z)%Z; cbn; [|reflexivity].
  now rewrite Nat.min_0_r.
Qed.

Lemma ctw_cma_nil z : (z <= 0)%Z -> costs_to_weights argsort [] "CMA-ES" (EInt z) = Ok [].
Proof.
  intros Hz. rewrite (ctw_cma_eq [] []) by constructor. rewrite cmaes_raw_ok by (auto; cbn; lia).
  cbn [bind length]. replace (Z.to_nat z) with 0%nat by lia. reflexivity.
Qed.

Lemma ctw_cma_index costs cs z : totals costs cs -> (Z.of_nat (length cs) < z)%Z ->
  costs_to_weights argsort costs "CMA-ES" (EInt z) = Err IndexError.
Proof. intros Hc Hz. rewrite (ctw_cma_eq _ _ _ Hc), cmaes_raw_err by auto. reflexivity. Qed.

Lemma ctw_cem_zero costs cs e : totals costs cs -> elit_R e = 0 ->
  costs_to_weights argsort costs "CEM" e = Err ZeroDivisionError.
Proof.
  intros Hc He. rewrite (ctw_cem_eq _ _ _ Hc). unfold cem_raw.
  destruct (Req_EM_T (elit_R e) 0); [reflexivity|contradiction].
Qed.

Lemma ctw_cem_type costs cs r : totals costs cs -> r <> 0 ->
  costs_to_weights argsort costs "CEM" (EReal r) = Err TypeError.
Proof.
  intros Hc He. rewrite (ctw_cem_eq _ _ _ Hc). unfold cem_raw. cbn [elit_R].
  destruct (Req_EM_T r 0); [contradiction|reflexivity].
Qed.

Lemma ctw_cma_type costs cs r : totals costs cs ->
  costs_to_weights argsort costs "CMA-ES" (EReal r) = Err TypeError.
Proof. intros Hc. now rewrite (ctw_cma_eq _ _ _ Hc). Qed.

Lemma totals_nil_iff costs cs : totals costs cs -> (cs = [] <-> costs = []).
Proof. intros H; inversion H; subst; split; congruence. Qed.

(** Any weight vector that is returned is a probability vector. *)
Lemma weights_simplex_if_ok costs m e w :
  costs <> [] -> costs_to_weights argsort costs m e = Ok w -> simplex (length costs) w.
Proof.
  intros Hne H. destruct (totals_or_empty costs) as [(cs & Hc & _)|Hem].
  2:{ rewrite ctw_empty_entry in H by exact Hem. discriminate. }
  rewrite <- (totals_length _ _ Hc).
  assert (cs <> []) as Hcs by (intros E; apply Hne; now apply (totals_nil_iff _ _ Hc)).
  destruct (rank_dec m) as [Hm|Hm].
  2:{ rewrite (not_rank_pibb argsort costs cs m e) in H by auto. injection H as <-.
      now apply pibb_simplex. }
  destruct Hm as [-> | ->].
  - destruct e as [z|r].
    + destruct (Z.eq_dec z 0) as [->|Hz].
      { rewrite (ctw_cem_zero _ _ _ Hc) in H by reflexivity. discriminate. }
      destruct (Nat.eq_dec (cem_k z (length cs)) 0) as [E|E].
      * assert (Hbad : (z < 0 /\ Z.of_nat (length cs) <= - z)%Z).
        { unfold cem_k in E. assert (length cs <> 0%nat)
            by (intros El; apply Hcs; now apply length_zero_iff_nil).
          destruct (Z.leb_spec 0 z); lia. }
        rewrite (ctw_cem_nonfinite _ _ _ Hc) in H by (auto; lia). discriminate.
      * destruct (cem_weights argsort costs cs z Ha Hc Hz) as (w' & E1 & E2); [lia|].
        rewrite E1 in H; injection H as ->.
        destruct (cem_simplex_aux (cem_k z (length cs)) (length cs)) as [A B].
        { pose proof (cem_k_le z (length cs)); lia. }
        eapply by_rank_simplex; [apply (proj1 (Ha cs))|exact E2|exact A|exact B].
    + destruct (Req_dec r 0) as [->|Hr].
      * rewrite (ctw_cem_zero _ _ _ Hc) in H by reflexivity. discriminate.
      * rewrite (ctw_cem_type _ _ _ Hc Hr) in H. discriminate.
  - destruct e as [z|r].
    + destruct (Z_le_gt_dec z 0) as [Hz|Hz].
      { rewrite (ctw_cma_nonfinite _ _ _ Hc) in H by auto. discriminate. }
      destruct (Z_le_gt_dec z (Z.of_nat (length cs))) as [Hz'|Hz'].
      2:{ rewrite (ctw_cma_index _ _ _ Hc) in H by lia. discriminate. }
      destruct (cma_weights argsort costs cs z Ha Hc) as (w' & E1 & E2); [lia|].
      rewrite E1 in H; injection H as ->.
      destruct (cma_simplex_aux z (length cs)) as [A B]; [lia|].
      eapply by_rank_simplex; [apply (proj1 (Ha cs))|exact E2|exact A|exact B].
    + rewrite (ctw_cma_type _ _ _ Hc) in H. discriminate.
Qed.

Lemma weights_admissible_ok costs m e :
  costs <> [] -> ~ In (CVec []) costs -> admissible m e (length costs) ->
  exists w, costs_to_weights argsort costs m e = Ok w /\ simplex (length costs) w.
Proof.
  intros Hne Hem [A1 A2].
  destruct (totals_or_empty costs) as [(cs & Hc & _)|]; [|contradiction].
  assert (cs <> []) as Hcs by (intros E; apply Hne; now apply (totals_nil_iff _ _ Hc)).
  enough (exists w, costs_to_weights argsort costs m e = Ok w) as [w Hw].
  { exists w; split; [exact Hw|]. now apply weights_simplex_if_ok with m e. }
  destruct (rank_dec m) as [[-> | ->]|Hm].
  - destruct (A1 eq_refl) as (z & -> & Hz).
    destruct (cem_weights argsort costs cs z Ha Hc) as (w' & E1 & E2); [lia| |now exists w'].
    apply cem_k_pos_iff; [lia| |lia]. intros El; apply Hcs; now apply length_zero_iff_nil.
  - destruct (A2 eq_refl) as (z & -> & Hz). rewrite <- (totals_length _ _ Hc) in Hz.
    destruct (cma_weights argsort costs cs z Ha Hc) as (w' & E1 & E2); [lia|now exists w'].
  - rewrite (not_rank_pibb argsort costs cs m e) by auto. eauto.
Qed.

(** complete table of outcomes, as a relation determined by the arguments *)
Inductive outcome (costs : list cost) (m : string) (e : elit) : option exn -> Prop :=
| o_empty_entry : In (CVec []) costs -> outcome costs m e (Some IndexError)
| o_pibb_nil : ~ In (CVec []) costs -> ~ rank_method m -> costs = [] ->
    outcome costs m e (Some ValueError)
| o_pibb : ~ In (CVec []) costs -> ~ rank_method m -> costs <> [] -> outcome costs m e None
| o_cem_zero : ~ In (CVec []) costs -> m = "CEM"%string -> elit_R e = 0 ->
    outcome costs m e (Some ZeroDivisionError)
| o_cem_type r : ~ In (CVec []) costs -> m = "CEM"%string -> e = EReal r -> r <> 0 ->
    outcome costs m e (Some TypeError)
| o_cem_nf z : ~ In (CVec []) costs -> m = "CEM"%string -> e = EInt z -> (z < 0)%Z ->
    costs <> [] -> (Z.of_nat (length costs) <= - z)%Z -> outcome costs m e (Some NonFinite)
| o_cem_ok z : ~ In (CVec []) costs -> m = "CEM"%string -> e = EInt z -> z <> 0%Z ->
    (costs = [] \/ ~ (z < 0 /\ Z.of_nat (length costs) <= - z)%Z) -> outcome costs m e None
| o_cma_type r : ~ In (CVec []) costs -> m = "CMA-ES"%string -> e = EReal r ->
    outcome costs m e (Some TypeError)
| o_cma_nf z : ~ In (CVec []) costs -> m = "CMA-ES"%string -> e = EInt z -> (z <= 0)%Z ->
    costs <> [] -> outcome costs m e (Some NonFinite)
| o_cma_index z : ~ In (CVec []) costs -> m = "CMA-ES"%string -> e = EInt z ->
    (Z.of_nat (length costs) < z)%Z -> outcome costs m e (Some IndexError)
| o_cma_ok z : ~ In (CVec []) costs -> m = "CMA-ES"%string -> e = EInt z ->
    (z <= Z.of_nat (length costs))%Z -> (costs = [] \/ (1 <= z)%Z) -> outcome costs m e None.

Lemma outcome_total costs m e : exists o, outcome costs m e o.
Proof.
  destruct (totals_or_empty costs) as [(cs & Hc & Hn)|H]; [|eexists; now apply o_empty_entry].
  destruct (rank_dec m) as [Hm|Hm].
  2:{ destruct costs as [|c costs]; eexists; [now apply o_pibb_nil|]. apply o_pibb; auto; discriminate. }
  destruct Hm as [Hm|Hm].
  - destruct (Req_dec (elit_R e) 0) as [E|E]; [eexists; now apply o_cem_zero|].
    destruct e as [z|r]; [|eexists; now apply o_cem_type with r].
    cbn in E. assert (z <> 0%Z) by (intros ->; now apply E).
    destruct (Z_lt_ge_dec z 0); [destruct (Z_le_gt_dec (Z.of_nat (length costs)) (- z))|].
    + destruct costs as [|c costs]; eexists; [eapply o_cem_ok; eauto|].
      eapply o_cem_nf; eauto; discriminate.
    + eexists; eapply o_cem_ok; eauto; right; lia.
    + eexists; eapply o_cem_ok; eauto; right; lia.
  - destruct e as [z|r]; [|eexists; now apply o_cma_type with r].
    destruct (Z_le_gt_dec z (Z.of_nat (length costs))).
    + destruct costs as [|c costs]; [eexists; eapply o_cma_ok; eauto|].
      destruct (Z_le_gt_dec z 0); eexists.
      * eapply o_cma_nf; eauto; discriminate.
      * eapply o_cma_ok; eauto; right; lia.
    + eexists; eapply o_cma_index; eauto; lia.
Qed.

Lemma outcome_correct costs m e o : outcome costs m e o ->
  match o with
  | Some x => costs_to_weights argsort costs m e = Err x
  | None => exists w, costs_to_weights argsort costs m e = Ok w
  end.
Proof.
  intros H.
  assert (Hcases : In (CVec []) costs \/ exists cs, totals costs cs).
  { destruct (totals_or_empty costs) as [(cs & Hc & _)|]; eauto. }
  destruct H; try (destruct Hcases as [?|[cs Hc]]; [contradiction|]); subst.
  - now apply ctw_empty_entry.
  - now apply ctw_pibb_nil.
  - rewrite (not_rank_pibb argsort costs cs m e) by auto; eauto.
  - now apply ctw_cem_zero with cs.
  - now apply ctw_cem_type with cs.
  - apply ctw_cem_nonfinite with cs; auto; rewrite ?(totals_length _ _ Hc); auto.
    intros E; now apply (totals_nil_iff _ _ Hc) in E.
  - match goal with H : _ \/ _ |- _ => destruct H as [->|Hk] end.
    + rewrite ctw_cem_nil by auto; eauto.
    + destruct costs as [|c costs]; [rewrite ctw_cem_nil by auto; eauto|].
      rewrite <- (totals_length _ _ Hc) in Hk.
      destruct (cem_weights argsort (c :: costs) cs z Ha Hc) as (w' & E1 & E2); eauto.
      apply cem_k_pos_iff; auto. intros El. apply length_zero_iff_nil in El.
      apply (totals_nil_iff _ _ Hc) in El; discriminate.
  - now apply ctw_cma_type with cs.
  - apply ctw_cma_nonfinite with cs; auto. intros E; now apply (totals_nil_iff _ _ Hc) in E.
  - apply ctw_cma_index with cs; auto. now rewrite (totals_length _ _ Hc).
  - match goal with H : _ \/ _ |- _ => destruct H as [->|Hk] end.
    + assert (z <= 0)%Z by (cbn [length Z.of_nat] in *; lia). rewrite ctw_cma_nil by auto; eauto.
    + destruct (cma_weights argsort costs cs z Ha Hc) as (w' & E1 & E2); eauto.
      rewrite (totals_length _ _ Hc). lia.
Qed.


Ltac crush_table :=
  repeat match goal with
  | H : _ /\ _ |- _ => destruct H
  | H : exists _, _ |- _ => destruct H
  | H : EInt _ = EInt _ |- _ => injection H as H
  | H : EReal _ = EReal _ |- _ => injection H as H
  | H : elit_R (EInt _) = 0 |- _ => cbn [elit_R] in H; apply eq_IZR in H
  | H : EReal _ = EInt _ |- _ => discriminate H
  | H : EInt _ = EReal _ |- _ => discriminate H
  | H : _ \/ _ |- _ => destruct H
  end; subst;
  try (match goal with H : ~ (_ \/ _) |- _ => exfalso; apply H; auto; fail end);
  try congruence; try tauto; try lia; try (cbn [elit_R] in *; lra);
  try (cbn [elit_R] in *; match goal with H : IZR _ = 0 |- _ => apply eq_IZR in H end; lia).

Lemma weights_failures costs m e :
  failure_table costs m e (costs_to_weights argsort costs m e).
Proof.
  destruct (outcome_total costs m e) as [o Ho]. pose proof (outcome_correct _ _ _ _ Ho) as Hr.
  set (r := costs_to_weights argsort costs m e) in *. clearbody r.
  unfold failure_table, rank_method in *.
  destruct Ho as [H1|H1 H2 H3|H1 H2 H3|H1 H2 H3|x H1 H2 H3 H4|z H1 H2 H3 H4 H5 H6|z H1 H2 H3 H4 H5
    |x H1 H2 H3|z H1 H2 H3 H4 H5|z H1 H2 H3 H4|z H1 H2 H3 H4 H5];
  [rewrite Hr|rewrite Hr|destruct Hr as [w ->]|rewrite Hr|rewrite Hr|rewrite Hr|destruct Hr as [w ->]
  |rewrite Hr|rewrite Hr|rewrite Hr|destruct Hr as [w ->]];
  (repeat split; try (intros E; discriminate E); try (intros x' E; injection E as <-; cbn; tauto)).
  all: try (intros E; injection E as <-; cbn; tauto).
  all: unfold rank_method in *. all: try tauto.
  all: try (subst m e).
  all: try solve [ intros H; exfalso; crush_table ].
  all: try solve [ exists x; split; [reflexivity|tauto] ].
  all: try solve [ exists z; split; [reflexivity|tauto] ].
  all: try solve [ intros _; right; split; [reflexivity|]; exists z; auto ].
  all: try (exfalso; discriminate).
  all: try (intros; discriminate).
Qed.

End Weights.
