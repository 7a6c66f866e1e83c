(** DMPs are described correctly: parameter vectors, training and the constructor. *)
From Coq Require Import String.
From Verif Require Import Base BaseLemmas DynModel ParamModel TrajModel DmpModel IntModel AliasModel AliasDyn AliasFa AliasDmp AliasSpec AliasProofs AliasProofs2 AliasProofs3 AliasProofs4.
Open Scope R_scope.

Section S.
Variable pf : nat -> list (string * pval) -> R -> res R.
Variable tf : nat -> list R -> list R -> res (list (string * pval)).
Notation K := (dmps pf tf).

Lemma nth_past (l : list source) i : (length l <= i)%nat -> nth i l Keep = Keep.
Proof. apply nth_overflow. Qed.
Lemma nine f : (f < 9)%nat \/ exists g, f = (9 + g)%nat.
Proof. destruct (Nat.lt_ge_cases f 9); [now left|right]. exists (f - 9)%nat. lia. Qed.
Ltac keep Hf := apply keep_src'; [exact Hf|try reflexivity].

(** ** setters *)
Lemma set_y_fine m y m' : set_y0 m y = Ok m' -> mfine pf tf MSetY m [y] m' [].
Proof.
  intros H. destruct (set_y0_form m y m' H) as (L & sp & g & -> & S1 & S2 & S3 & S4 & _ & S5).
  split; [|intros j Hj; cbn in Hj; lia]. intros f Hf. change (m_nf (upd_y0 m y sp g)) with (m_nf m) in Hf.
  destruct f as [|[|[|[|[|[|[|[|[|f]]]]]]]]]; cbn [m_binds]; try (keep Hf).
  - apply arg_src; [cbn; lia|cbn; lia| |now left]. symmetry. apply slice_all. exact L.
  - exact S1.
  - destruct (m_goal m) eqn:Eg; [destruct (m_req m) eqn:Er|].
    + keep Hf. cbn. rewrite Eg, S4 by reflexivity. reflexivity.
    + apply new_src.
    + keep Hf. cbn. rewrite Eg, (proj2 S5 eq_refl). reflexivity.
  - exact S3.
  - cbn. now rewrite S2.
Qed.
Lemma set_attr_fine m y m' : set_yattr m y = Ok m' -> mfine pf tf MSetAttr m [y] m' [].
Proof.
  intros H. destruct (set_yattr_form m y m' H) as (L & g & -> & E). destruct (goal_attr_form m y g E) as (S1 & S2).
  split; [|intros j Hj; cbn in Hj; lia]. intros f Hf. change (m_nf (upd_attr m y g)) with (m_nf m) in Hf.
  destruct f as [|[|[|[|[|[|[|[|[|f]]]]]]]]]; cbn [m_binds]; try (keep Hf).
  - apply arg_src; [cbn; lia|cbn; lia| |now left]. symmetry. apply slice_all. exact L.
  - exact S1.
  - unfold goal_binds. destruct (m_goal m) as [[e|s|s|s]|] eqn:Eg; try (keep Hf; cbn [m_get upd_attr m_goal]; rewrite Eg; exact S2).
    destruct (m_req m) eqn:Er; [keep Hf; cbn [m_get upd_attr m_goal]; rewrite Eg; exact S2|].
    apply arg_src; [cbn; lia|cbn; lia| |now left]. cbn [m_get upd_attr m_goal]. rewrite S2. symmetry. apply slice_all. exact L.
Qed.

(** ** set_param_vector *)
Lemma set_params_fine m v m' : m_set_params m v = (m', Ok tt) -> mfine pf tf MSetParams m [v] m' [].
Proof.
  unfold m_set_params, dmp_set, dmp_size. change (p_sel (pdmp_of m)) with (m_sel m). change (p_dim (pdmp_of m)) with (m_dim m).
  destruct (fas_size (fas_of (pdmp_of m))) as [k|] eqn:Ek; cbn [bind]; [|discriminate].
  destruct (Nat.eqb_spec (length v) (k + (if mem "goal" (m_sel m) then m_dim m else 0))) as [L|]; [|discriminate].
  destruct (fas_set (fas_of (pdmp_of m)) v) as [fs [rest|e]] eqn:Es; [|discriminate].
  assert (Ev : v = slice 0 (length v) v) by (symmetry; now apply slice_all). rewrite Ev in Es at 1.
  destruct (fas_set_ok v _ 0 (length v) fs rest ltac:(lia) Es) as ((L1 & L2 & S) & k' & Ek' & Hk & Er).
  rewrite Ek in Ek'. injection Ek' as <-. rewrite Nat.add_0_l in Er.
  assert (Arr : fas_of (Pdmp (option_map (fun _ => fs) (m_fas m)) (m_sel m) (m_attr m) (m_dim m)) = fs).
  { unfold fas_of, pdmp_of in *. cbn in *. destruct (m_fas m); [reflexivity|]. cbn in Es. now injection Es as <- _. }
  intros H. split; [|intros j Hj; cbn in Hj; lia]. intros f Hf.
  assert (HA : m_arrays m' = fas_arrays fs).
  { unfold m_arrays. rewrite <- Arr. f_equal. destruct (mem "goal" (m_sel m)) eqn:Eg.
    - unfold set_attr in H. destruct (Nat.eqb _ _); [|discriminate]. destruct (goal_attr _ _); [|discriminate]. now injection H as <-.
    - now injection H as <-. }
  unfold m_nf in Hf. rewrite HA, L1 in Hf. cbn [nth]. destruct (nine f) as [Hf9|[g ->]].
  - assert (Hn : (f < m_nf m)%nat) by (unfold m_nf; lia). cbn [m_binds nth]. rewrite (proj2 (Nat.ltb_lt f 9) Hf9).
    destruct (mem "goal" (m_sel m)) eqn:Eg.
    + unfold set_attr in H. cbn [p_dim] in H. destruct (Nat.eqb_spec (length (firstn (m_dim m) rest)) (m_dim m)) as [Ll|]; [|discriminate].
      cbn [p_fas p_attr] in H. set (m1 := upd_fas m _) in *. destruct (goal_attr m1 _) as [g|] eqn:Eq; [|discriminate]. injection H as <-.
      destruct (goal_attr_form m1 _ g Eq) as (S1 & S2). change (m_goal m1) with (m_goal m) in *. change (m_req m1) with (m_req m) in *.
      assert (Eg' : firstn (m_dim m) rest = slice (length v - m_dim m) (m_dim m) v).
      { rewrite Er. unfold slice. rewrite firstn_firstn. f_equal; [lia|]. f_equal. lia. }
      assert (A : forall f', sourced K (Some m) [v] (Arg 0 (length v - m_dim m) (m_dim m)) f' (firstn (m_dim m) rest) /\ forall k' off' len', Arg 0 (length v - m_dim m) (m_dim m) = Arg k' off' len' -> In k' (dmp_keeps MSetParams m)).
      { intros f'. apply arg_src; [cbn; lia|cbn; lia|exact Eg'|now left]. }
      destruct f as [|[|[|[|[|[|[|[|[|f]]]]]]]]]; try (keep Hn); try lia.
      * apply A.
      * exact S1.
      * unfold goal_binds. destruct (m_goal m) as [[e|s|s|s]|] eqn:Eg2; try (keep Hn; cbn [m_get upd_attr m_goal]; rewrite Eg2; exact S2).
        destruct (m_req m) eqn:Er2; [keep Hn; cbn [m_get upd_attr m_goal]; rewrite Eg2; exact S2|].
        cbn [m_get upd_attr m_goal]. rewrite S2. apply A.
    + injection H as <-. destruct f as [|[|[|[|[|[|[|[|[|f]]]]]]]]]; try (keep Hn); lia.
  - change (m_get (9 + g) m') with (nth (9 + g - 9) (m_arrays m') []). cbn [m_binds nth]. rewrite (proj2 (Nat.ltb_ge (9 + g) 9)) by lia.
    replace (9 + g - 9)%nat with g by lia. rewrite HA. specialize (S g ltac:(lia)).
    destruct (nth g (fas_sources (fas_of (pdmp_of m)) 0) Keep) as [| |k0 off len|g0]; try contradiction.
    + apply keep_src'; [unfold m_nf, m_arrays; lia|]. change (m_get (9 + g) m) with (nth (9 + g - 9) (m_arrays m) []). replace (9 + g - 9)%nat with g by lia. exact S.
    + destruct S as (-> & Q1 & Q2). apply arg_src; [cbn; lia|exact Q1|exact Q2|now left].
Qed.

(** ** train *)
Lemma chop_row n fuel : forall l i r, nth_error (chop fuel n l) i = Some r -> r = slice (i * n) n l.
Proof.
  induction fuel as [|fuel IH]; intros l i r H; cbn [chop] in H; [now destruct i|]. destruct l as [|a l]; [now destruct i|].
  destruct i as [|i]; cbn [nth_error] in H; [injection H as <-; reflexivity|]. rewrite (IH _ _ _ H). unfold slice. f_equal. now rewrite skipn_add.
Qed.
Lemma chop_length n fuel : forall l, (0 < n)%nat -> length l = (fuel * n)%nat -> length (chop fuel n l) = fuel.
Proof.
  induction fuel as [|fuel IH]; intros l Hn L; cbn [chop]; [reflexivity|]. destruct l as [|a l]; [cbn in L; lia|]. cbn [length]. f_equal. apply IH; [exact Hn|].
  rewrite skipn_length. lia.
Qed.
Lemma chop_zero fuel l : length l = 0%nat -> chop fuel 0 l = [].
Proof. destruct l; [now destruct fuel|discriminate]. Qed.
Lemma traj_rows n ts ys t : traj_of n ts ys = Ok t -> length ys = (length ts * n)%nat /\ tj_ts t = ts /\ mrows (tj_ys t) = chop (length ts) n ys.
Proof.
  unfold traj_of. destruct (Nat.eqb_spec (length ys) (length ts * n)) as [L|]; [|discriminate]. intros H. split; [exact L|].
  unfold new_traj in H. cbv zeta in H. destruct (Nat.eqb _ _); [|discriminate]. cbn [column bind] in H.
  destruct (derivative _ _ _ _ None) as [yds|]; [|discriminate]. cbn [bind] in H. destruct (derivative _ _ yds _ None) as [ydds|]; [|discriminate]. cbn [bind] in H.
  injection H as <-. split; reflexivity.
Qed.
Lemma set_tau_form m t m' : set_tau m t = Ok m' -> exists sp g p ga, m' = upd_tau m t sp g p ga /\ d_attr sp = d_attr (m_spring m) /\ d_damp sp = d_damp (m_spring m) /\
  sub_start g = sub_start (m_goal m) /\ sub_attr g = sub_attr (m_goal m) /\
  match m_goal m with None => g = None | Some (SubE _) => exists e, g = Some (SubE e) | Some (SubS _) => exists e, g = Some (SubS e) | Some (SubR _) => exists e, g = Some (SubR e) | Some (SubT _) => exists e, g = Some (SubT e) end.
Proof.
  unfold set_tau. destruct (Req_EM_T _ _); [discriminate|]. intros H.
  eexists _, _, _, _. split; [injection H as H; symmetry; exact H|]. split; [reflexivity|]. split; [reflexivity|].
  destruct (m_goal m) as [[e|s|s|s]|]; cbn [option_map sub_set_tau]; (split; [reflexivity|]); (split; [reflexivity|]); eauto.
Qed.
Lemma set_tau_fine m t m' : set_tau m t = Ok m' -> mfine pf tf (MSetTau t) m [] m' [].
Proof.
  intros H. destruct (set_tau_form m t m' H) as (sp & g & p & ga & -> & S1 & S2 & S3 & S4 & _).
  apply keep_all; try reflexivity. intros f _. destruct f as [|[|[|[|[|[|[|[|[|f]]]]]]]]]; try reflexivity; [exact S1|exact S3|exact S4|]. cbn. now rewrite S2.
Qed.
Lemma train_fine m ts ys t m' : traj_of (m_dim m) ts ys = Ok t -> m_train pf tf m t = Ok m' -> mfine pf tf MTrain m [ts; ys] m' [].
Proof.
  intros Ht H. destruct (traj_rows _ _ _ _ Ht) as (L & Ets & Eys). clear Ht. unfold m_train in H. rewrite Ets, Eys in H.
  set (rows := chop (length ts) (m_dim m) ys) in *. destruct (last_res ts) as [tau|]; [|discriminate]. cbn [bind] in H.
  destruct (set_tau m tau) as [m1|] eqn:E1; [|discriminate]. cbn [bind] in H.
  destruct (nth_res rows 0) as [y0|] eqn:Ey0; [|discriminate]. cbn [bind] in H.
  destruct (set_y0 m1 y0) as [m2|] eqn:E2; [|discriminate]. cbn [bind] in H.
  destruct (last_res rows) as [yN|] eqn:EyN; [|discriminate]. cbn [bind] in H.
  destruct (set_yattr m2 yN) as [m3|] eqn:E3; [|discriminate]. cbn [bind] in H.
  destruct (get_range_per_dim t) as [amps|]; [|discriminate]. cbn [bind] in H.
  destruct (set_tau_form _ _ _ E1) as (sp1 & g1 & p1 & ga1 & -> & A1 & A2 & A3 & A4 & A5).
  destruct (set_y0_form _ _ _ E2) as (B0 & sp2 & g2 & -> & B1 & B2 & B3 & B4 & B5 & B6).
  destruct (set_yattr_form _ _ _ E3) as (C0 & g3 & -> & C1). destruct (goal_attr_form _ _ _ C1) as (C2 & C3).
  cbn [upd_tau upd_y0 m_spring m_goal m_req m_dim] in *.
  set (m4 := upd_amps _ (Some amps)) in H.
  assert (F : exists fs, m' = upd_ts (upd_fas m4 fs) (Some ts)).
  { destruct (m_fas m4) as [fs|] eqn:Ef.
    - destruct (targets _ _ _) as [pt|]; [|discriminate]. cbn [bind] in H. destruct (mapM _ _) as [tr|]; [|discriminate]. cbn [bind] in H. eexists. symmetry. injection H as H. exact H.
    - cbn [bind] in H. exists None. injection H as <-. unfold upd_fas. rewrite <- Ef. reflexivity. }
  destruct F as (fs & ->). clear H.
  assert (R0 : y0 = slice 0 (m_dim m) ys).
  { unfold nth_res in Ey0. destruct (nth_error rows 0) as [r|] eqn:Er; [|discriminate]. injection Ey0 as <-. exact (chop_row _ _ _ _ _ Er). }
  assert (RN : yN = slice (length ys - m_dim m) (m_dim m) ys /\ (m_dim m <= length ys)%nat).
  { unfold last_res, nth_res in EyN. destruct (nth_error rows (length rows - 1)) as [r|] eqn:Er; [|discriminate]. injection EyN as <-.
    assert (Q := chop_row _ _ _ _ _ Er). fold rows in Q. destruct (Nat.eq_dec (m_dim m) 0) as [D|D].
    - unfold rows in Er. rewrite D, chop_zero in Er by lia. discriminate.
    - assert (Lr : length rows = length ts) by (apply chop_length; [lia|exact L]). destruct ts as [|t0 ts]; [cbn in Er; unfold rows in Er; cbn in Er; discriminate|].
      rewrite Lr in Q. cbn [length] in *. rewrite Nat.sub_succ, Nat.sub_0_r in Q. split; [|lia]. rewrite Q. f_equal. lia. }
  destruct RN as (RN & Hd).
  assert (Hg : (match g2 with Some (SubE _) => True | _ => False end) <-> match m_goal m with Some (SubE _) => True | _ => False end).
  { rewrite B5. destruct (m_goal m) as [[e|s|s|s]|]; [destruct A5 as [e' ->]..|rewrite A5]; tauto. }
  split; [|intros j Hj; cbn in Hj; lia]. intros f _. assert (N9 := nf_nine m).
  assert (LN : forall f v, v = yN -> sourced K (Some m) [ts; ys] (Arg 1 (length ys - m_dim m) (m_dim m)) f v /\ forall k off len, Arg 1 (length ys - m_dim m) (m_dim m) = Arg k off len -> In k (dmp_keeps MTrain m)).
  { intros f' v ->. apply arg_src; [cbn; lia|cbn; lia|exact RN|right; now left]. }
  destruct f as [|[|[|[|[|[|[|[|[|f]]]]]]]]]; cbn [m_binds nth]; try (apply new_src); try (apply keep_src'; [lia|try reflexivity]).
  - apply arg_src; [cbn; lia|cbn; lia| |right; now left]. cbn. exact R0.
  - apply LN. reflexivity.
  - cbn. now rewrite B1.
  - destruct (m_goal m) as [g0|] eqn:Eg.
    + destruct (m_req m) eqn:Er; [|apply new_src]. apply keep_src'; [lia|]. cbn [m_get m_goal upd_ts upd_fas upd_amps m4 upd_attr].
      rewrite C2, B4; [now rewrite A3, Eg|]. now destruct g1.
    + apply keep_src'; [lia|]. cbn [m_get m_goal upd_ts upd_fas upd_amps m4 upd_attr]. rewrite C2, (proj2 B6 A5), Eg. reflexivity.
  - unfold goal_binds. cbn [m_get m_goal upd_ts upd_fas upd_amps m4 upd_attr].
    assert (Nope : match m_goal m with Some (SubE _) => False | _ => True end -> sub_attr g3 = sub_attr (m_goal m)).
    { intros Q. rewrite C3, <- A4, <- B3. destruct g2 as [[e|s|s|s]|]; trivial. exfalso. destruct (m_goal m) as [[?|?|?|?]|]; try (now apply Hg). exact Q. }
    destruct (m_goal m) as [[e|s|s|s]|] eqn:Eg; try (apply keep_src'; [lia|]; cbn [m_get]; rewrite Eg; apply Nope; exact I).
    destruct g2 as [[e2|?|?|?]|]; try (exfalso; now apply Hg). destruct (m_req m).
    + apply keep_src'; [lia|]. cbn [m_get]. rewrite Eg, C3, B3, A4. reflexivity.
    + apply LN. exact C3.
  - apply arg_src; [cbn; lia|cbn; lia| |now left]. cbn. symmetry. now apply slice_all.
  - cbn. now rewrite B2, A2.
Qed.

(** ** all calls *)
Lemma select_arrays m n : m_arrays (m_select m n) = m_arrays m.
Proof.
  unfold m_arrays, m_select, dmp_select, fas_of, pdmp_of, fas_arrays. cbn. destruct (m_fas m) as [fs|]; cbn; [|reflexivity].
  induction fs as [|f fs IH]; cbn; [reflexivity|]. f_equal. exact IH.
Qed.
Lemma decouple_fine m : mfine pf tf MDecouple m [] (m_decouple m) [].
Proof.
  split; [|intros j Hj; cbn in Hj; lia]. intros f Hf. change (m_nf (m_decouple m)) with (m_nf m) in Hf.
  destruct f as [|[|[|[|[|[|[|[|[|f]]]]]]]]]; cbn [m_binds]; try (keep Hf).
  - cbn. destruct (m_goal m) as [[e|s|s|s]|]; reflexivity.
  - cbn. destruct (m_goal m) as [[e|s|s|s]|]; reflexivity.
  - unfold decoupled. destruct (d_damp (m_spring m)) eqn:E; [apply new_src|]. keep Hf. cbn. now rewrite E.
Qed.
Lemma dmps_described : described K dmp_keeps dmp_shares.
Proof.
  constructor.
  - exact dmp_put.
  - intros c m args m' rs H. change (mfine pf tf c m args m' rs).
    cbn [meth dmps] in H. unfold m_meth in H. assert (Hb : m_body pf tf c m args = Ok (m', rs)) by (destruct (m_goal m) as [[?|?|?|?]|]; [exact H|discriminate|exact H..]).
    clear H. destruct c; cbn [m_body] in Hb.
    + destruct args; [|discriminate]. destruct (set_tau m t) as [m1|] eqn:E; [|discriminate]. cbn [bind] in Hb. injection Hb as <- <-. now apply set_tau_fine.
    + destruct args as [|y [|]]; try discriminate. destruct (set_y0 m y) as [m1|] eqn:E; [|discriminate]. cbn [bind] in Hb. injection Hb as <- <-. now apply set_y_fine.
    + destruct args as [|y [|]]; try discriminate. destruct (set_yattr m y) as [m1|] eqn:E; [|discriminate]. cbn [bind] in Hb. injection Hb as <- <-. now apply set_attr_fine.
    + destruct args; [|discriminate]. injection Hb as <- <-. eapply (mgetter pf tf _ _ 0 (length (m_x_init m))); try reflexivity; [unfold m_nf; lia|now left|].
      unfold get_x_init. cbn [m_get]. now rewrite slice_all.
    + destruct args; [|discriminate]. injection Hb as <- <-. eapply (mgetter pf tf _ _ 0 (min (m_dim m) (length (m_x_init m)))); try reflexivity; [unfold m_nf; lia|now left|cbn; lia|].
      f_equal. unfold get_y0, get_y_init, slice. cbn [m_get skipn]. destruct (Nat.min_spec (m_dim m) (length (m_x_init m))) as [[Q ->]|[Q ->]]; [reflexivity|]. rewrite !firstn_all2 by lia. reflexivity.
    + destruct args; [|discriminate]. injection Hb as <- <-. eapply (mgetter pf tf _ _ 2 (length (m_attr m))); try reflexivity; [unfold m_nf; lia|now left|].
      cbn [m_get]. now rewrite slice_all.
    + destruct args; [|discriminate]. destruct (m_ts_train m) as [ts|] eqn:E; [|discriminate]. injection Hb as <- <-. eapply (mgetter pf tf _ _ 7 (length ts)); try reflexivity; [unfold m_nf; lia| |now left| |].
      * cbn. now rewrite E.
      * cbn. now rewrite E.
      * cbn [m_get]. rewrite E. cbn [opt_list]. now rewrite slice_all.
    + destruct args; [|discriminate]. injection Hb as <- <-. apply decouple_fine.
    + destruct args; [|discriminate]. injection Hb as <- <-. apply keep_all; try reflexivity.
      * unfold m_nf. now rewrite select_arrays.
      * intros f _. unfold m_get. rewrite select_arrays. reflexivity.
    + destruct args; [|discriminate]. destruct (m_get_params m); [|discriminate]. cbn [bind] in Hb. injection Hb as <- <-. now apply keep_all.
    + destruct args as [|v [|]]; try discriminate. destruct (m_set_params m v) as [m1 [[]|]] eqn:E; [|discriminate]. injection Hb as <- <-. now apply set_params_fine.
    + destruct args as [|x [|]]; try discriminate. destruct (m_diffeq pf m x) as [[m1 xd]|] eqn:E; [|discriminate]. cbn [bind] in Hb. injection Hb as <- <-.
      apply driven_fine; try reflexivity. eapply diffeq_driven; exact E.
    + destruct args; [|discriminate]. destruct (m_start pf m None) as [[[m1 x] xd]|] eqn:E; [|discriminate]. cbn [bind] in Hb. injection Hb as <- <-.
      apply driven_fine; try reflexivity. eapply start_driven; exact E.
    + destruct args as [|x [|]]; try discriminate. destruct (m_step pf me m dt x) as [[[m1 x1] xd]|] eqn:E; [|discriminate]. cbn [bind] in Hb. injection Hb as <- <-.
      apply driven_fine; try reflexivity. eapply step_driven; exact E.
    + destruct args as [|ts [|]]; try discriminate. destruct (m_integrate pf me m ts) as [[m1 [xs xds]]|] eqn:E; [|discriminate]. cbn [bind] in Hb. injection Hb as <- <-.
      apply driven_fine; try reflexivity. eapply integrate_driven; exact E.
    + destruct args as [|ts [|]]; try discriminate. destruct (m_ana _ _ _ _); [|discriminate]. cbn [bind] in Hb. injection Hb as <- <-. now apply keep_all.
    + destruct args; [|discriminate]. destruct (m_ana _ _ _ _); [|discriminate]. cbn [bind] in Hb. injection Hb as <- <-. now apply keep_all.
    + destruct args as [|ts [|ys [|]]]; try discriminate. destruct (traj_of _ ts ys) as [t|] eqn:Et; [|discriminate]. cbn [bind] in Hb.
      destruct (m_train pf tf m t) as [m1|] eqn:E; [|discriminate]. cbn [bind] in Hb. injection Hb as <- <-. eapply train_fine; eassumption.
Qed.

(** ** the constructor *)
Lemma mctor_fine c args m : m_construct c args = Ok m ->
  forall f, (f < m_nf m)%nat -> sourced K None args (mc_binds c args f) f (m_get f m) /\ forall k off len, mc_binds c args f = Arg k off len -> In k (mctor_keeps c).
Proof.
  unfold m_construct. destruct (_ && _)%bool eqn:E; [|discriminate]. apply andb_prop in E. destruct E as [E E3]. apply andb_prop in E. destruct E as [E1 E2].
  intros H f Hf.
  assert (Nw : forall f v l, sourced K None args New f v /\ forall k off len, New = Arg k off len -> In k l) by (intros f' v l; split; [exact I|discriminate]).
  assert (One : forall f v, v = nth 1 args [] -> sourced K None args (Arg 1 0 (length (nth 1 args []))) f v /\ forall k off len, Arg 1 0 (length (nth 1 args [])) = Arg k off len -> In k (mctor_keeps c)).
  { intros f' v ->. apply Nat.leb_le in E1. split; [|intros k off len Q; injection Q as <- _ _; now left]. split; [lia|]. split; [lia|]. symmetry. now apply slice_all. }
  unfold new_dmp in H. cbv zeta in H. cbn [k_transf k_alpha k_phase k_gating k_goal k_damping k_scaling k_amps opt] in H.
  set (sp := new_spring _ _ _ _ _ _) in H. destruct (default_subs _ _ _ _ sp) as [[[[go ga] ph] da]|] eqn:Ed; [|discriminate]. cbn [bind] in H. injection H as <-.
  destruct f as [|[|[|[|[|[|[|[|[|f]]]]]]]]]; cbn [mc_binds]; try apply Nw; try (apply One; reflexivity).
  - assert (Q : match n_type c with Ijspeert | Sct23 false _ => True | _ => sub_attr go = nth 1 args [] end).
    { unfold default_subs in Ed. cbv zeta in Ed. destruct (n_type c) as [| | |ns d]; trivial.
      - destruct (for_gating _ _ _); [|discriminate]. cbn [bind] in Ed. now injection Ed as <- _ _ _.
      - destruct (for_gating _ _ _); [|discriminate]. cbn [bind] in Ed. now injection Ed as <- _ _ _.
      - destruct ns; [|exact I]. destruct (if d then _ else _) as [x|]; [|discriminate]. cbn [bind] in Ed. now injection Ed as <- _ _ _. }
    destruct (n_type c) as [| | |[] d]; try apply Nw; apply One; exact Q.
  - cbn [m_get m_amps]. destruct (n_amps c) as [k|] eqn:Ea; [|apply Nw]. apply Nat.ltb_lt in E3. split.
    + split; [exact E3|]. split; [lia|]. cbn. symmetry. now apply slice_all.
    + intros k' off len Q. injection Q as <- _ _. unfold mctor_keeps. rewrite Ea. right. apply in_or_app. right. now left.
  - cbn [m_get m_spring]. unfold sp. cbn [new_spring d_damp]. destruct (n_alpha c) as [[r|k]|] eqn:Ea; try apply Nw. cbn [option_map opt cpar pget csource]. cbn in E2. apply Nat.ltb_lt in E2. split.
    + split; [exact E2|]. split; [lia|]. symmetry. now apply slice_all.
    + intros k' off len Q. injection Q as <- _ _. unfold mctor_keeps. rewrite Ea. right. now left.
Qed.

(** ** Theorem: careful programs with a DMP *)
Theorem careful_dmps c args es : careful_dmp pf tf c args es -> run_dmp pf tf c args es = by_value_dmp pf tf c args es.
Proof.
  unfold careful_dmp, run_dmp, by_value_dmp. destruct (m_construct c args) as [m|] eqn:E; [|reflexivity]. intros H. cbn [bind]. f_equal.
  apply (run_careful K dmp_keeps dmp_shares dmps_described m args (mc_binds c args) (mctor_keeps c)); [|exact H].
  exact (mctor_fine c args m E).
Qed.
End S.
