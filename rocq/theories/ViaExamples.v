(** A small DMP whose rollout can be computed: cases of the theorems, and counterexamples. *)
From Coq Require Import String.
From Verif Require Import Base BaseLemmas DynModel DynSpec DynProofs DynProofs5 ParamModel ParamSpec FaModel TrajModel TrajSpec DmpModel DmpSpec DmpProofs7 DmpProofs12 DmpProofs17
  CppModel CppSpec TaskModel TaskSpec TaskProofs TaskProofs2 OptSpec ExploreSpec ViaSpec ViaProofs.
Open Scope string_scope.
Open Scope R_scope.

(** one line with the given offset *)
Definition v_fa (o : R) : fa :=
  Fa [("centers", PArr (Arr [1; 1]%nat [0])); ("widths", PArr (Arr [1; 1]%nat [1])); ("slopes", PArr (Arr [1; 1]%nat [0])); ("offsets", PArr (Arr [1; 1]%nat [o]))]
     (Some 1%nat) (Some ["offsets"]).
(** a mass which is only moved by the forcing term *)
Definition v_dmp (sel : list string) (sc : fscaling) (o g : R) : dmp :=
  Dmp 1 1 [0; 0; 0; 0; 1; 0] (Some [0]) [g] (Some [v_fa o]) sel (Dsys 1 [0; 0] [0] (PScal 0) (PScal 0) (PScal 1) 1) None
      (SubT (new_time 1 false)) (SubE (Esys 1 [1] [0] (PScal 1))) None false sc None None.
Definition v_solver (sel : list string) (sc : fscaling) (o g : R) : solver := Solver (v_dmp sel sc o g) 1 3.
Definition v_kinds : nat -> fa_kind := fun _ => KLwr.
Notation v_pf := (py_predict exp v_kinds).

Lemma v_predict i o ph : v_pf i (f_model (v_fa o)) ph = Ok o.
Proof.
  rewrite (lwr_value exp v_kinds i (f_model (v_fa o)) 1 [0] [1] [0] [o] ph [1]); try reflexivity; [|lia].
  unfold sumn. cbn. f_equal. ring.
Qed.
Lemma v_wf sel sc o g : sc <> Amplitude -> wf v_pf (v_dmp sel sc o g).
Proof.
  intros Hs. unfold wf. cbn -[py_predict].
  split; [lra|]. split; [reflexivity|]. split; [intros y E; injection E as <-; reflexivity|]. split; [discriminate|]. split; [congruence|].
  split; [reflexivity|]. split; [reflexivity|]. split; [reflexivity|]. split; [exact I|]. split; [exact I|]. split; [exact I|]. split; [intros; lra|]. split; [exact I|]. split; [exact I|].
  split; [split; [cbn; lra|reflexivity]|]. split; [reflexivity|]. split; [split; [cbn; lra|split; [reflexivity|exact I]]|]. split; [reflexivity|].
  split; [right; cbn; lia|]. intros [|i] f E; [|destruct i; discriminate]. injection E as <-. intros _ ph. exists o. apply v_predict.
Qed.
Lemma v_selectable sel sc o g : selectable_dmp (pdmp_of (v_dmp sel sc o g)).
Proof.
  split; [|reflexivity]. constructor; [|constructor]. intros _. split; [reflexivity|]. exists ["offsets"]. split; [reflexivity|].
  split; [repeat constructor; intros []|]. constructor; [|constructor]. eexists. split; [reflexivity|]. repeat split; discriminate.
Qed.
Lemma v_linear sel sc o g : linear_params v_kinds (v_dmp sel sc o g).
Proof.
  intros fs E i f Hf _. injection E as <-. destruct i as [|i]; [|destruct i; discriminate]. injection Hf as <-. split.
  - split; [reflexivity|]. exists 1%nat. split; [lia|]. repeat constructor; eexists; split; reflexivity.
  - cbn. intros n [<-|[]]. cbn. tauto.
Qed.
Lemma v_times : linspace0 1 3 = Ok [0; 1 / 2; 1].
Proof. unfold linspace0. cbn [Z.ltb Z.compare Z.to_nat Pos.to_nat Pos.iter_op Init.Nat.add seq map]. f_equal. repeat (apply (f_equal2 cons)); trivial; cbn; lra. Qed.
Lemma v_set sc o g o' : m_set_params (v_dmp [] sc o g) [o'] = (v_dmp [] sc o' g, Ok tt).
Proof. reflexivity. Qed.
Lemma v_set_goal sc o g o' g' : m_set_params (v_dmp ["goal"] sc o g) [o'; g'] = (v_dmp ["goal"] sc o' g', Ok tt).
Proof. reflexivity. Qed.
(** the position: at rest, and then moved by the first forcing term *)
Lemma v_rollout sel sc o g r : sc <> Amplitude -> rollout_spec v_pf (v_dmp sel sc o g) [0; 1 / 2; 1] false r ->
  yv (a_xs r) 0 0 = 0 /\ yv (a_xs r) 1 0 = 0 /\ yv (a_xs r) 2 0 = o * (match sc with GMinusY0 => g | _ => 1 end) / 4.
Proof.
  intros Hs (_ & _ & _ & _ & _ & _ & (ps & pds & Eg & Hga) & _ & _ & Hf & Hi & Hd & Hst). set (m := v_dmp sel sc o g) in *.
  change (m_dim m) with 1%nat in *. change (m_tau m) with 1 in *.
  destruct (Hi 0%nat ltac:(lia)) as [Y0 Z0]. cbn in Y0, Z0. change (length [0; 1 / 2; 1]) with 3%nat in *.
  assert (A : av 1 (a_xs r) 0 = 1).
  { destruct (Hga 0%nat ltac:(lia)) as [-> _]. change (m_gating m) with (SubE (Esys 1 [1] [0] (PScal 1))) in Eg. cbn [sub_ana] in Eg. rewrite e_ana_ok in Eg by (cbn; auto).
    injection Eg as <- _. unfold at_, eX. cbn. match goal with |- context [exp ?a] => replace a with 0 by lra end. rewrite exp_0. lra. }
  destruct (Hf 0%nat 0%nat ltac:(lia) ltac:(lia)) as [F1 F2]. rewrite A in F2. rewrite F1 in F2. change (pred_val v_pf m (pv 1 (a_xs r) 0) 0) with
    (match v_pf 0%nat (f_model (v_fa o)) (pv 1 (a_xs r) 0) with Ok v => v | Err _ => 0 end) in F2. rewrite v_predict in F2.
  assert (Fa : DmpSpec.factor m 0 = match sc with GMinusY0 => g | _ => 1 end) by (unfold m, DmpSpec.factor; destruct sc; cbn; [reflexivity|lra|congruence]). rewrite Fa in F2.
  destruct (Hd 0%nat 0%nat ltac:(lia) ltac:(lia)) as [D0 E0]. destruct (Hd 1%nat 0%nat ltac:(lia) ltac:(lia)) as [D1 _].
  destruct (Hst 0%nat 0%nat ltac:(lia) ltac:(lia)) as [S0 T0]. destruct (Hst 1%nat 0%nat ltac:(lia) ltac:(lia)) as [S1 _]. cbn [nth] in S0, T0, S1.
  unfold accel in E0. rewrite F2, Y0, Z0 in E0. cbn [m v_dmp m_spring d_spring d_mass m_tau par_val] in E0. set (q := match sc with GMinusY0 => g | _ => 1 end) in *.
  assert (E : zv 1 (a_xds r) 0 0 = o * q). { rewrite E0. rewrite Ropp_0, Rmult_0_l, Rmult_0_r, Rminus_0_r. unfold Rdiv. rewrite Rmult_0_l. field. }
  split; [exact Y0|]. assert (Y1 : yv (a_xs r) 1 0 = 0) by (rewrite S0, Y0, D0, Z0; lra). split; [exact Y1|].
  rewrite S1, Y1, D1, T0, Z0, E. field.
Qed.
(** pass through 1, at some time or at time 1 *)
Definition v_task (t : option R) : task := Task [1] t 0 None None 1 0 0 0.
Lemma v_ready t ts : goal_ready (v_task t) ts.
Proof. intros g H. cbn in H. lra. Qed.
Lemma dist1 Y : TaskSpec.dist 1 Y (point [1]) = Rabs (Y 0%nat - 1).
Proof. unfold TaskSpec.dist, point. unfold sumn. cbn. rewrite <- sqrt_Rsqr_abs. f_equal. unfold Rsqr. ring. Qed.
Definition v_end (sc : fscaling) (o g : R) : R := o * (match sc with GMinusY0 => g | _ => 1 end) / 4.
Lemma v_costs (frame : bool) t sel sc o g x o' g' : sc <> Amplitude -> m_set_params (v_dmp sel sc o g) x = (v_dmp sel sc o' g', Ok tt) ->
  exists Y w, total_cost v_pf (v_solver sel sc o g) frame (v_task t) x = Rabs (Y w 0%nat - 1) /\ counts 1 (point [1]) t [0; 1 / 2; 1] Y w /\
    Y 0%nat 0%nat = 0 /\ Y 1%nat 0%nat = 0 /\ Y 2%nat 0%nat = v_end sc o' g'.
Proof.
  intros Hs E. pose proof (v_wf sel sc o' g' Hs) as W.
  destruct (sample_costs v_pf frame (v_solver sel sc o g) (v_task t) x _ W E) as (ts & r & Ets & Er & H); [cbn; lia|reflexivity|cbn; lia|].
  cbn [v_solver o_time o_n] in Ets. rewrite v_times in Ets. injection Ets as <-. destruct (H (v_ready t _)) as (cs & Ecs & L5 & T0 & V & _ & _ & V2 & _ & V3 & _ & V4).
  destruct (ana_total v_pf _ [0; 1 / 2; 1] false W ltac:(discriminate)) as (r' & Er' & Sp). rewrite Er in Er'. injection Er' as <-.
  destruct (v_rollout sel sc o' g' r Hs Sp) as (Y0 & Y1 & Y2).
  rewrite V2 in T0 by (cbn; lra). rewrite V3 in T0 by (unfold uses_goal; cbn; intros [H1 H2]; first [lra|congruence]). rewrite V4 in T0 by (cbn; lra).
  destruct (V ltac:(cbn; lra)) as (w & C & V1). exists (yv (a_xs r)), w. cbn [v_task k_via k_time length k_wv k_radius] in *. rewrite dist1 in V1.
  split; [|now repeat split].
  unfold total_cost. rewrite Ecs. destruct cs as [|c cs]; [discriminate|]. cbn [nth] in T0. rewrite T0. change (nth 0 cs 0) with (nth 1 (c :: cs) 0). rewrite V1.
  rewrite (Rmax_left 0 0) by lra. rewrite Rminus_0_r. rewrite Rmax_right by apply Rabs_pos. lra.
Qed.
(** at time 1 the end counts; without a time, the nearest row *)
Lemma v_timed (frame : bool) sel sc o g x o' g' : sc <> Amplitude -> m_set_params (v_dmp sel sc o g) x = (v_dmp sel sc o' g', Ok tt) ->
  total_cost v_pf (v_solver sel sc o g) frame (v_task (Some 1)) x = Rabs (v_end sc o' g' - 1).
Proof.
  intros Hs E. destruct (v_costs frame (Some 1) sel sc o g x o' g' Hs E) as (Y & w & -> & C & _ & _ & <-).
  assert (w = 2%nat) as ->; [|reflexivity]. destruct C as [(H1 & H2 & _)|(_ & H)]; [destruct w as [|[|[|w]]]; cbn in *; try lia; lra|].
  specialize (H 2%nat). cbn in H. specialize (H ltac:(lia)). lra.
Qed.
Lemma v_untimed (frame : bool) sel sc o g x o' g' : sc <> Amplitude -> m_set_params (v_dmp sel sc o g) x = (v_dmp sel sc o' g', Ok tt) ->
  total_cost v_pf (v_solver sel sc o g) frame (v_task None) x = Rmin 1 (Rabs (v_end sc o' g' - 1)).
Proof.
  intros Hs E. destruct (v_costs frame None sel sc o g x o' g' Hs E) as (Y & w & -> & (Hw & C & _) & Y0 & Y1 & Y2). cbn in Hw.
  assert (O : Rabs (0 - 1) = 1) by (rewrite Rabs_left1; lra).
  pose proof (C 0%nat ltac:(cbn; lia)) as C0. pose proof (C 2%nat ltac:(cbn; lia)) as C2. rewrite !dist1 in C0, C2. rewrite Y0, O in C0. rewrite Y2 in C2.
  destruct w as [|[|[|w]]]; [| | |lia]; rewrite ?Y0, ?Y1, ?Y2, ?O in *; symmetry; [apply Rmin_left; lra|apply Rmin_left; lra|apply Rmin_right; lra].
Qed.
