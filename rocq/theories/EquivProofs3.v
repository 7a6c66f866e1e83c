From Coq Require Import String.
From Verif Require Import Base BaseLemmas SessionModel UpdatersModel UpdatersSpec UpdatersProofs UpdatersProofs2 UpdatersProofs3 UpdatersProofs4 UpdatersProofs5
  LoopModel LoopSpec EquivSpec EquivProofs EquivProofs2.
Open Scope R_scope.

Lemma average_length samples w m : average_rows samples w = Ok m -> length m = mcols samples.
Proof.
  unfold average_rows. destruct (negb _); [discriminate|]. destruct (Req_EM_T _ _); [discriminate|].
  intros H; injection H as <-. now rewrite map_length, seq_length.
Qed.
Lemma generate_wf rng d n m : (mat_wf (rng (d_mean d) (d_covar d) n)) -> generate_samples rng d n = Ok m ->
  mat_wf m /\ mcols m = mcols (rng (d_mean d) (d_covar d) n).
Proof.
  intros Hwf. unfold generate_samples. destruct (d_bounds d) as [[lo up]|]; [|intros H; injection H as <-; auto].
  set (s := rng _ _ _) in *. unfold clip_samples.
  assert (G : forall r, (if (bound_fits lo (mcols s) && bound_fits up (mcols s))%bool
                 then Ok (Mat (mcols s) (map (fun row => map2 (fun j x => clip1 (bound_at lo j) (bound_at up j) x) (seq 0 (mcols s)) row) (mrows s)))
                 else r) = Ok m -> r <> Ok m -> mat_wf m /\ mcols m = mcols s).
  { intros r H Hr. destruct (_ && _)%bool; [|contradiction]. injection H as <-. split; [|reflexivity].
    unfold mat_wf in *. cbn [mrows mcols]. apply Forall_map. revert Hwf. apply Forall_impl. intros row Hl.
    rewrite map2_length, seq_length, Hl. apply Nat.min_id. }
  destruct lo, up; try discriminate; intros H; (apply (G (if (mcols s =? 1)%nat then Err Unmodelled else Err ValueError)); [exact H|]); intros X; destruct (mcols s =? 1)%nat; discriminate X.
Qed.

Section Affine.
Variables CV P S : Type.
Variables catA catB : oval CV P -> ext.
Variable rng : S -> list R -> mat -> Z -> S * res mat.
Variable argsort : list R -> list nat.
Variables (c : R) (v : list R).
Hypothesis Hc : 0 < c.
Hypothesis Hsz : sized rng.
Hypothesis Hco : commutes rng c v.
Variables evA evB : S -> list R -> S * res cost.
Variables rollA rollB : S -> list R -> S * res CV.
Variables erA erB : S -> CV -> list R -> S * res cost.
Hypothesis Hev : forall o x, length x = length v -> evB o (affine_row c v x) = evA o x.
Hypothesis Hroll : forall o x, length x = length v -> rollB o (affine_row c v x) = rollA o x.
Hypothesis Her : forall o r x, length x = length v -> erB o r (affine_row c v x) = erA o r x.
Variable u : updater.
Let A := bbo_oracles rng evA argsort u rollA erA.
Let B := bbo_oracles rng evB argsort (scale_updater c u) rollB erB.

Definition vd (d : dist) : Prop := length (d_mean d) = length v /\ bounds_fit d.
Definition vm (d : dist) (m : mat) : Prop := mat_wf m /\ mcols m = length v.

Lemma gen_affine o o' d n r : vd d -> o_gen CV S A o d n = (o', r) ->
  o_gen CV S B o (affine_dist c v d) n = (o', res_map (affine_mat c v) r) /\ match r with Ok m => vm d m | Err _ => True end.
Proof.
  intros [Hl Hb]. cbn [A B bbo_oracles o_gen]. pose proof (Hco o (d_mean d) (d_covar d) n Hl) as E.
  cbn [affine_dist d_mean d_covar]. rewrite E. destruct (rng o (d_mean d) (d_covar d) n) as [s1 [m|x]] eqn:Er; cbn [fst snd res_map bind].
  2:{ intros H; injection H as <- <-. auto. }
  intros H; injection H as <- <-. destruct (Hsz _ _ _ _ _ _ Er) as [Hwf Hm].
  split.
  - f_equal. unfold generate_samples. unfold bounds_fit in Hb. cbn [affine_dist d_bounds].
    destruct (d_bounds d) as [[lo up]|]; cbn [option_map fst snd]; [|reflexivity].
    rewrite Hl in Hb. apply clip_samples_affine; try tauto. congruence.
  - destruct (generate_samples _ d _) as [m'|] eqn:Eg; [|exact I].
    apply generate_wf in Eg; [|exact Hwf]. unfold vm. destruct Eg as [H1 H2]. split; [exact H1|congruence].
Qed.
Lemma upd_affine o o' d m cs r : vd d -> vm d m -> o_upd CV S A o d m cs = (o', r) ->
  o_upd CV S B o (affine_dist c v d) (affine_mat c v m) (map (fun k => k) cs) =
    (o', res_map (fun p => (affine_dist c v (fst p), snd p)) r) /\
  match r with Ok p => vd (fst p) | Err _ => True end.
Proof.
  intros [Hl Hb] [Hwf Hm] H. cbn [A B bbo_oracles o_upd] in *. injection H as <- <-. rewrite map_id.
  rewrite update_affine by (assumption || lia). split; [reflexivity|].
  destruct (update_distribution argsort u d m cs) as [[d' w]|] eqn:Eu; [|exact I]. apply update_inv in Eu.
  destruct Eu as (_ & Ea & Eb). apply average_length in Ea. cbn [fst]. unfold vd, bounds_fit. rewrite Eb.
  split; [congruence|]. unfold bounds_fit in Hb. rewrite Ea, Hm, <- Hl. exact Hb.
Qed.

Lemma run_affine w0 r cf up w0' r' cf' up' d0 k n o tr ws ws' : length v = length (d_mean d0) -> bounds_fit d0 ->
  same_run (affine_dist c v) (affine_event c v)
    (run_optimization CV P S catA A w0 r cf up d0 k n (St o tr ws))
    (run_optimization CV P S catB B w0' r' cf' up' (affine_dist c v d0) k n (St o (map (affine_event c v) tr) ws')).
Proof.
  intros Hv Hb. apply (run_sim CV P S catA catB A B (affine_event c v) (fun _ => True) True
    (affine_row c v) (affine_mat c v) (affine_dist c v) (fun k => k) (fun x => length x = length v) vd vm); auto.
  - intros. cbn. now rewrite map_id.
  - intros d [H _]. exact H.
  - intros d m x [Hwf Hm] Hx. unfold mat_wf in Hwf. rewrite Forall_forall in Hwf. rewrite Hwf by exact Hx. exact Hm.
  - intros o1 o2 x res Hx E. rewrite res_map_id. cbn [A B bbo_oracles o_eval] in *. now rewrite Hev.
  - apply gen_affine.
  - intros. now apply upd_affine.
  - split; auto.
Qed.
Lemma run_task_affine w0 r tk tsv up w0' r' tk' tsv' up' d0 k n o tr ws ws' : length v = length (d_mean d0) -> bounds_fit d0 ->
  same_run (affine_dist c v) (affine_event c v)
    (run_optimization_task CV P S catA A w0 r tk tsv up d0 k n (St o tr ws))
    (run_optimization_task CV P S catB B w0' r' tk' tsv' up' (affine_dist c v d0) k n (St o (map (affine_event c v) tr) ws')).
Proof.
  intros Hv Hb. apply (run_task_sim CV P S catA catB A B (affine_event c v) (fun _ => True) True
    (affine_row c v) (affine_mat c v) (affine_dist c v) (fun k => k) (fun x => length x = length v) vd vm); auto.
  - intros. cbn. now rewrite map_id.
  - intros d [H _]. exact H.
  - intros d m x [Hwf Hm] Hx. unfold mat_wf in Hwf. rewrite Forall_forall in Hwf. rewrite Hwf by exact Hx. exact Hm.
  - intros o1 o2 x res Hx E. cbn [A B bbo_oracles o_roll] in *. now rewrite Hroll.
  - intros o1 o2 rr x res Hx E. rewrite res_map_id. cbn [A B bbo_oracles o_evalr] in *. now rewrite Her.
  - apply gen_affine.
  - intros. now apply upd_affine.
  - split; auto.
Qed.
End Affine.

(** ** costs *)
Lemma rescore_totals g f cs rs : rescores g f -> totals cs rs -> totals (map f cs) (map g rs).
Proof. intros [_ H] T. induction T; cbn; constructor; auto. Qed.
Lemma rescore_first g f cs : rescores g f ->
  mapM first_cost (map f cs) = res_map (map g) (mapM first_cost cs).
Proof.
  intros H. destruct (totals_or_empty cs) as [(rs & T & _)|Hin].
  - rewrite (proj2 (mapM_first_totals _ _) T). rewrite (proj2 (mapM_first_totals _ _) (rescore_totals _ _ _ _ H T)). reflexivity.
  - rewrite (mapM_first_in_empty cs Hin). rewrite mapM_first_in_empty; [reflexivity|].
    apply in_map_iff. exists (CVec []). destruct H as [H _]. auto.
Qed.
Lemma ctw_first argsort cs cs' m e : mapM first_cost cs = mapM first_cost cs' -> costs_to_weights argsort cs m e = costs_to_weights argsort cs' m e.
Proof. intros H. unfold costs_to_weights. now rewrite H. Qed.
Lemma first_scalars rs : mapM first_cost (map CScalar rs) = Ok rs.
Proof. apply mapM_first_totals, scalar_totals. Qed.
Lemma ctw_pibb_rescored argsort m e a b f cs : ~ rank_method m -> 0 < a -> rescores (fun r => a * r + b) f ->
  costs_to_weights argsort (map f cs) m e = costs_to_weights argsort cs m e.
Proof.
  intros Hm Ha Hf. pose proof (rescore_first _ _ cs Hf) as E.
  destruct (mapM first_cost cs) as [rs|x] eqn:Er.
  - cbn [res_map] in E. transitivity (costs_to_weights argsort (map CScalar rs) m e).
    + rewrite <- (pibb_affine argsort m e a b rs Hm Ha). apply ctw_first. rewrite E.
      rewrite <- (map_map (fun c => a * c + b) CScalar). now rewrite first_scalars.
    + apply ctw_first. now rewrite first_scalars.
  - unfold costs_to_weights. rewrite E, Er. reflexivity.
Qed.
Lemma ctw_rank_rescored argsort m e g f cs rs : argsort_ok argsort -> rank_method m -> (forall x y, x < y <-> g x < g y) ->
  rescores g f -> totals cs rs -> NoDup rs ->
  costs_to_weights argsort (map f cs) m e = costs_to_weights argsort cs m e.
Proof.
  intros Ha Hm Hg Hf T Hn. pose proof (rescore_totals _ _ _ _ Hf T) as T'.
  apply mapM_first_totals in T, T'.
  transitivity (costs_to_weights argsort (map CScalar rs) m e).
  - rewrite <- (rank_monotone_invariant argsort Ha m e g rs Hm Hn Hg). apply ctw_first. rewrite T'.
    rewrite <- (map_map g CScalar). now rewrite first_scalars.
  - apply ctw_first. now rewrite first_scalars.
Qed.
Lemma update_ctw argsort u d m cs cs' :
  costs_to_weights argsort cs (u_method u) (u_elit u) = costs_to_weights argsort cs' (u_method u) (u_elit u) ->
  update_distribution argsort u d m cs = update_distribution argsort u d m cs'.
Proof.
  destruct u; cbn [u_method u_elit update_distribution]; intros H;
    [unfold update_mean|unfold update_covar_decay|unfold update_covar_adapt]; rewrite H; reflexivity.
Qed.

Definition rescored {S X} (f : cost -> cost) (ev : S -> X -> S * res cost) (o : S) (x : X) : S * res cost :=
  (fst (ev o x), res_map f (snd (ev o x))).
Section Costs.
Variables CV P S : Type.
Variables catA catB : oval CV P -> ext.
Variable rng : S -> list R -> mat -> Z -> S * res mat.
Variable argsort : list R -> list nat.
Variable f : cost -> cost.
Variable evA : S -> list R -> S * res cost.
Variable roll : S -> list R -> S * res CV.
Variable er : S -> CV -> list R -> S * res cost.
Variable u : updater.
Let A := bbo_oracles rng evA argsort u roll er.
Let B := bbo_oracles rng (fun o x => (fst (evA o x), res_map f (snd (evA o x)))) argsort u roll
                     (fun o r x => (fst (er o r x), res_map f (snd (er o r x)))).
Variables (Qe : event CV -> Prop) (E : Prop).
Hypothesis Hupd : forall d m cs,
  match update_distribution argsort u d m cs with Ok p => Qe (EUpd d m cs (fst p) (snd p)) | Err _ => E end ->
  update_distribution argsort u d m (map f cs) = update_distribution argsort u d m cs.

Lemma res_map_pair (r : res (dist * list R)) : res_map (fun p => (fst p, snd p)) r = r.
Proof. destruct r as [[? ?]|]; reflexivity. Qed.
Lemma run_costs w0 r cf up w0' r' cf' up' d0 k n o tr ws ws' :
  let RA := run_optimization CV P S catA A w0 r cf up d0 k n (St o tr ws) in
  (forall e, In e (st_trace (fst RA)) -> Qe e) -> ((exists e, snd RA = Err e) -> E) ->
  same_run (fun d => d) (cost_event f) RA
    (run_optimization CV P S catB B w0' r' cf' up' d0 k n (St o (map (cost_event f) tr) ws')).
Proof.
  apply (run_sim CV P S catA catB A B (cost_event f) Qe E
    (fun x => x) (fun m => m) (fun d => d) f (fun _ => True) (fun _ => True) (fun _ _ => True)); auto.
  - intros. now rewrite map_id.
  - intros o1 o2 x res _ H. cbn [A B bbo_oracles o_eval] in *. now rewrite H.
  - intros o1 o2 d n1 res _ H. rewrite res_map_id. split; [exact H|now destruct res].
  - intros o1 o2 d m cs res _ _ H HQ. cbn [A B bbo_oracles o_upd] in *. injection H as <- <-. split; [|now destruct (update_distribution _ _ _ _ _)].
    rewrite Hupd by exact HQ. now rewrite res_map_pair.
Qed.
Lemma run_task_costs w0 r tk tsv up w0' r' tk' tsv' up' d0 k n o tr ws ws' :
  let RA := run_optimization_task CV P S catA A w0 r tk tsv up d0 k n (St o tr ws) in
  (forall e, In e (st_trace (fst RA)) -> Qe e) -> ((exists e, snd RA = Err e) -> E) ->
  same_run (fun d => d) (cost_event f) RA
    (run_optimization_task CV P S catB B w0' r' tk' tsv' up' d0 k n (St o (map (cost_event f) tr) ws')).
Proof.
  apply (run_task_sim CV P S catA catB A B (cost_event f) Qe E
    (fun x => x) (fun m => m) (fun d => d) f (fun _ => True) (fun _ => True) (fun _ _ => True)); auto.
  - intros. now rewrite map_id.
  - intros o1 o2 rr x res _ H. cbn [A B bbo_oracles o_evalr] in *. now rewrite H.
  - intros o1 o2 d n1 res _ H. rewrite res_map_id. split; [exact H|now destruct res].
  - intros o1 o2 d m cs res _ _ H HQ. cbn [A B bbo_oracles o_upd] in *. injection H as <- <-. split; [|now destruct (update_distribution _ _ _ _ _)].
    rewrite Hupd by exact HQ. now rewrite res_map_pair.
Qed.
End Costs.

Lemma upd_unit argsort u a b f d m cs : ~ rank_method (u_method u) -> 0 < a -> rescores (fun r => a * r + b) f ->
  update_distribution argsort u d m (map f cs) = update_distribution argsort u d m cs.
Proof. intros. apply update_ctw. eapply ctw_pibb_rescored; eauto. Qed.
Definition distinct_event {CV} (e : event CV) : Prop :=
  match e with EUpd _ _ cs _ _ => forall rs, totals cs rs -> NoDup rs | _ => True end.
Lemma upd_order argsort u g f d m cs : argsort_ok argsort -> rank_method (u_method u) -> (forall x y, x < y <-> g x < g y) ->
  rescores g f ->
  match update_distribution argsort u d m cs with
  | Ok p => distinct_event (EUpd (CV := unit) d m cs (fst p) (snd p)) | Err _ => False end ->
  update_distribution argsort u d m (map f cs) = update_distribution argsort u d m cs.
Proof.
  intros Ha Hm Hg Hf. destruct (update_distribution argsort u d m cs) as [[d' w]|] eqn:Eu; [|contradiction]. cbn.
  intros Hn. rewrite <- Eu. apply update_ctw. apply update_inv in Eu. destruct Eu as (Ew & _ & _).
  destruct (totals_or_empty cs) as [(rs & T & _)|Hin].
  - eapply ctw_rank_rescored; eauto.
  - rewrite (ctw_empty_entry argsort cs _ _ Hin) in Ew. discriminate.
Qed.
