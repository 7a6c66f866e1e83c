(** Proofs about DMPs: computing has no effect on later results; decoupling; histories of changes. *)
From Coq Require Import String.
From Verif Require Import Base BaseLemmas DynModel DynSpec DynProofs DynProofs6 ParamModel ParamSpec ParamProofs TrajModel DmpModel DmpSpec DmpProofs DmpProofs2 DmpProofs3 DmpProofs4 DmpProofs5 DmpProofs7 DmpProofs8 DmpProofs9 DmpProofs13.
Open Scope R_scope.

Section S.
Variable pf : nat -> list (string * pval) -> R -> res R.

(** the changes made by differential_equation *)
Definition touched (m m1 : dmp) : Prop :=
  exists a p g, m1 = upd_spring m (Dsys (d_tau (m_spring m)) (d_init (m_spring m)) a p (d_spring (m_spring m)) (d_mass (m_spring m))
                                       (d_dimy (m_spring m))) g /\
    (p = d_damp (m_spring m) \/ (m_damping m <> None /\ par_ok p (m_dim m))) /\
    match m_goal m with Some g0 => g = Some g0 \/ exists g', g = Some g' /\ sub_set_attr g0 (m_attr m) = Ok g' | None => g = None end.

Lemma attr_twice g a g1 : sub_set_attr g a = Ok g1 -> sub_set_attr g1 a = Ok g1.
Proof.
  destruct g as [e|s|h|h]; cbn; intros H; try (injection H as <-; reflexivity).
  destruct (Nat.eqb _ _) eqn:E; [|discriminate]. injection H as <-. cbn. now rewrite E.
Qed.
Lemma sub_dim_attr g a g1 : sub_set_attr g a = Ok g1 -> sub_dim g1 = sub_dim g.
Proof.
  destruct g as [e|s|h|h]; cbn; intros H; try (injection H as <-; reflexivity).
  destruct (Nat.eqb _ _) eqn:E; [|discriminate]. now injection H as <-.
Qed.

Lemma touch_diffeq m m1 x : touched m m1 -> m_diffeq pf m1 x = m_diffeq pf m x.
Proof.
  intros (a & p & g & -> & Hp' & Hg). unfold m_diffeq. cbv zeta.
  assert (Hp : m_damping m = None -> p = d_damp (m_spring m)) by (destruct Hp' as [->|[H _]]; [trivial|congruence]). clear Hp'.
  set (sp := Dsys _ _ a p _ _ _).
  assert (Hdg : d_goal (upd_spring m sp g) = d_goal m).
  { unfold d_goal, upd_spring. cbn. destruct (m_goal m) as [g0|]; [|now rewrite Hg].
    destruct Hg as [->|(g' & -> & E)]; [reflexivity|]. now apply sub_dim_attr in E. }
  assert (I1 : ix_goal (upd_spring m sp g) = ix_goal m) by (unfold ix_goal; now rewrite Hdg).
  assert (I2 : ix_phase (upd_spring m sp g) = ix_phase m) by (unfold ix_phase; now rewrite Hdg).
  assert (I3 : ix_gating (upd_spring m sp g) = ix_gating m) by (unfold ix_gating; now rewrite Hdg).
  assert (I4 : ix_damping (upd_spring m sp g) = ix_damping m) by (unfold ix_damping; now rewrite Hdg).
  rewrite I1, I2, I3, I4. clear I1 I2 I3 I4 Hdg.
  change (ix_spring (upd_spring m sp g)) with (ix_spring m).
  change (m_attr (upd_spring m sp g)) with (m_attr m). change (m_dim (upd_spring m sp g)) with (m_dim m).
  change (m_damping (upd_spring m sp g)) with (m_damping m). change (m_phase (upd_spring m sp g)) with (m_phase m).
  change (m_gating (upd_spring m sp g)) with (m_gating m). change (m_tau (upd_spring m sp g)) with (m_tau m).
  change (m_goal (upd_spring m sp g)) with g. change (m_spring (upd_spring m sp g)) with sp.
  change (scale_goal (upd_spring m sp g)) with (scale_goal m). change (predictions pf (upd_spring m sp g)) with (predictions pf m).
  change (factors (upd_spring m sp g)) with (factors m).
  (* the spring with the new attractor, up to its damping *)
  assert (Ha : forall t, d_set_attr sp t = let* s := d_set_attr (m_spring m) t in Ok (d_set_damp s p)).
  { intros t. unfold d_set_attr, sp. cbn. now destruct (Nat.eqb _ _). }
  set (c1 := match m_goal m with Some g0 => _ | None => _ end).
  assert (E1 : match g with
    | Some g0 => let* g1 := sub_set_attr g0 (m_attr m) in let* xg := get_ix (ix_goal m) x in let* xdg := sub_diffeq g1 xg in
                 let* target := scale_goal m xg in let* sp0 := d_set_attr sp target in Ok (sp0, Some g1, xdg)
    | None => let* sp0 := d_set_attr sp (m_attr m) in Ok (sp0, None, repeat 0 (m_dim m)) end =
    let* q := c1 in Ok (d_set_damp (fst (fst q)) p, snd (fst q), snd q)).
  { unfold c1. destruct (m_goal m) as [g0|].
    - assert (Ea : exists gg, g = Some gg /\ sub_set_attr gg (m_attr m) = sub_set_attr g0 (m_attr m)).
      { destruct Hg as [->|(g' & -> & E)]; [now exists g0|]. exists g'. split; [reflexivity|]. rewrite (attr_twice _ _ _ E). now symmetry. }
      destruct Ea as (gg & -> & Ea). rewrite Ea. destruct (sub_set_attr g0 (m_attr m)) as [g1|]; [|reflexivity]. cbn [bind].
      destruct (get_ix (ix_goal m) x) as [xg|]; [|reflexivity]. cbn [bind]. destruct (sub_diffeq g1 xg) as [xdg|]; [|reflexivity]. cbn [bind].
      destruct (scale_goal m xg) as [tg|]; [|reflexivity]. cbn [bind]. rewrite Ha. destruct (d_set_attr (m_spring m) tg); reflexivity.
    - rewrite Hg. rewrite Ha. destruct (d_set_attr (m_spring m) (m_attr m)); reflexivity. }
  rewrite E1. clear E1.
  assert (Hd1 : forall s g1 v, c1 = Ok (s, g1, v) -> d_damp s = d_damp (m_spring m)).
  { unfold c1. intros s g1 v. assert (Hs : forall t s', d_set_attr (m_spring m) t = Ok s' -> d_damp s' = d_damp (m_spring m)).
    { intros t s'. unfold d_set_attr. destruct (Nat.eqb _ _); [|discriminate]. intros E. now injection E as <-. }
    destruct (m_goal m) as [g0|].
    - destruct (sub_set_attr g0 (m_attr m)); [|discriminate]. cbn [bind]. destruct (get_ix (ix_goal m) x); [|discriminate]. cbn [bind].
      destruct (sub_diffeq _ _); [|discriminate]. cbn [bind]. destruct (scale_goal _ _); [|discriminate]. cbn [bind].
      destruct (d_set_attr (m_spring m) _) eqn:E; [|discriminate]. cbn [bind]. intros H. injection H as <- _ _. now apply Hs in E.
    - destruct (d_set_attr (m_spring m) _) eqn:E; [|discriminate]. cbn [bind]. intros H. injection H as <- _ _. now apply Hs in E. }
  destruct c1 as [[[sp1 goal1] xdg]|]; [|reflexivity]. cbn [bind fst snd]. specialize (Hd1 _ _ _ eq_refl).
  destruct (put_ix (ix_goal m) xdg _) as [xd1|]; [|reflexivity]. cbn [bind].
  destruct (m_damping m) as [ds|].
  - destruct (get_ix (ix_damping m) x) as [xda|]; [|reflexivity]. cbn [bind]. destruct (sub_diffeq ds xda) as [xdd|]; [|reflexivity]. cbn [bind].
    change (d_set_damp (d_set_damp sp1 p) (PVec xda)) with (d_set_damp sp1 (PVec xda)). reflexivity.
  - cbn [bind]. rewrite (Hp eq_refl). assert (Es : d_set_damp sp1 (d_damp (m_spring m)) = sp1) by (rewrite <- Hd1; now destruct sp1).
    rewrite Es. reflexivity.
Qed.

Lemma diffeq_touch m m1 x xd : m_diffeq pf m x = Ok (m1, xd) -> touched m m1.
Proof.
  unfold m_diffeq. cbv zeta.
  set (c1 := match m_goal m with Some g0 => _ | None => _ end).
  assert (H1 : forall s g1 v, c1 = Ok (s, g1, v) -> (exists a, s = Dsys (d_tau (m_spring m)) (d_init (m_spring m)) a (d_damp (m_spring m)) (d_spring (m_spring m)) (d_mass (m_spring m)) (d_dimy (m_spring m))) /\
     match m_goal m with Some g0 => g1 = Some g0 \/ exists g', g1 = Some g' /\ sub_set_attr g0 (m_attr m) = Ok g' | None => g1 = None end).
  { assert (Hs : forall t s, d_set_attr (m_spring m) t = Ok s -> exists a, s = Dsys (d_tau (m_spring m)) (d_init (m_spring m)) a (d_damp (m_spring m)) (d_spring (m_spring m)) (d_mass (m_spring m)) (d_dimy (m_spring m))).
    { intros t s. unfold d_set_attr. destruct (Nat.eqb _ _); [|discriminate]. intros E. injection E as <-. now exists t. }
    intros s g1 v. unfold c1. destruct (m_goal m) as [g0|].
    - destruct (sub_set_attr g0 (m_attr m)) as [g'|] eqn:Eg; [|discriminate]. cbn [bind]. destruct (get_ix (ix_goal m) x); [|discriminate]. cbn [bind].
      destruct (sub_diffeq _ _); [|discriminate]. cbn [bind]. destruct (scale_goal _ _); [|discriminate]. cbn [bind].
      destruct (d_set_attr (m_spring m) _) eqn:E; [|discriminate]. cbn [bind]. intros H. injection H as <- <- _. split; [eauto|]. right. eauto.
    - destruct (d_set_attr (m_spring m) _) eqn:E; [|discriminate]. cbn [bind]. intros H. injection H as <- <- _. split; [eauto|reflexivity]. }
  destruct c1 as [[[sp1 goal1] xdg]|]; [|discriminate]. destruct (H1 _ _ _ eq_refl) as [[a ->] Hg]. clear H1. cbn [bind].
  destruct (put_ix (ix_goal m) xdg _) as [xd1|]; [|discriminate]. cbn [bind].
  set (sp1 := Dsys _ _ a _ _ _ _).
  assert (H2 : forall s v, match m_damping m with
                 | Some ds => let* xda := get_ix (ix_damping m) x in let* xdd := sub_diffeq ds xda in Ok (d_set_damp sp1 (PVec xda), xdd)
                 | None => Ok (sp1, repeat 0 (m_dim m)) end = Ok (s, v) ->
       exists p, s = Dsys (d_tau (m_spring m)) (d_init (m_spring m)) a p (d_spring (m_spring m)) (d_mass (m_spring m)) (d_dimy (m_spring m)) /\
         (p = d_damp (m_spring m) \/ (m_damping m <> None /\ par_ok p (m_dim m)))).
  { intros s v. destruct (m_damping m) as [ds|].
    - destruct (get_ix (ix_damping m) x) as [xda|] eqn:Ex; [|discriminate]. cbn [bind]. destruct (sub_diffeq ds xda) as [xdd|]; [|discriminate].
      cbn [bind]. intros E. injection E as <- _. exists (PVec xda). split; [reflexivity|right]. split; [discriminate|]. cbn.
      unfold get_ix, ix_damping in Ex. cbn [fst snd] in Ex. destruct (Nat.leb_spec (m_dim m + m_dim m + d_goal m + 1 + 1 + m_dim m) (length x)); [|discriminate].
      injection Ex as <-. rewrite firstn_length_le; [reflexivity|]. rewrite skipn_length. lia.
    - intros E. injection E as <- _. exists (d_damp (m_spring m)). split; [reflexivity|now left]. }
  destruct (match m_damping m with Some ds => _ | None => _ end) as [[sp2 xdd]|]; [|discriminate].
  destruct (H2 _ _ eq_refl) as (p & -> & Hp). cbn [bind].
  destruct (put_ix _ _ _); [|discriminate]. cbn [bind]. destruct (get_ix _ _); [|discriminate]. cbn [bind].
  destruct (d_diffeq _ _); [|discriminate]. cbn [bind]. destruct (get_ix _ _); [|discriminate]. cbn [bind].
  destruct (sub_diffeq _ _); [|discriminate]. cbn [bind]. destruct (put_ix _ _ _); [|discriminate]. cbn [bind].
  destruct (get_ix _ _); [|discriminate]. cbn [bind]. destruct (sub_diffeq _ _); [|discriminate]. cbn [bind]. destruct (put_ix _ _ _); [|discriminate]. cbn [bind].
  destruct (one _); [|discriminate]. cbn [bind]. destruct (one _); [|discriminate]. cbn [bind]. destruct (predictions _ _ _); [|discriminate]. cbn [bind].
  destruct (factors _ _); [|discriminate]. cbn [bind]. destruct (add_forcing _ _ _ _); [|discriminate]. cbn [bind]. destruct (put_ix _ _ _); [|discriminate]. cbn [bind].
  intros E. injection E as <- _. exists a, p, goal1. split; [reflexivity|]. now split.
Qed.
Lemma touched_refl m : touched m m.
Proof.
  exists (d_attr (m_spring m)), (d_damp (m_spring m)), (m_goal m). split; [destruct m as [? ? ? ? ? ? ? [] ? ? ? ? ? ? ? ?]; reflexivity|].
  split; [now left|]. destruct (m_goal m); [now left|trivial].
Qed.
Lemma touched_trans m m1 m2 : touched m m1 -> touched m1 m2 -> touched m m2.
Proof.
  intros (a & p & g & -> & Hp & Hg) (a2 & p2 & g2 & -> & Hp2 & Hg2). cbn in *. exists a2, p2, g2. split; [reflexivity|]. split.
  - destruct Hp2 as [->|H]; [exact Hp|now right].
  - destruct (m_goal m) as [g0|].
    + destruct Hg as [->|(g' & -> & E)].
      * exact Hg2.
      * right. destruct Hg2 as [->|(g'' & -> & E2)]; [now exists g'|]. rewrite (attr_twice _ _ _ E) in E2. injection E2 as <-. now exists g'.
    + now rewrite Hg in Hg2.
Qed.
Lemma touched_goal m m1 : synced m -> touched m m1 -> m_goal m1 = m_goal m.
Proof.
  intros Sy (a & p & g & -> & Hp & Hg). cbn. unfold synced in Sy. destruct (m_goal m) as [g0|]; [|trivial].
  destruct Hg as [->|(g' & -> & E)]; [trivial|]. f_equal. destruct g0 as [e|s|h|h]; cbn in E; try now injection E as <-.
  destruct (Nat.eqb _ _); [|discriminate]. injection E as <-. rewrite <- Sy. now destruct e.
Qed.
Lemma touched_sound m m1 : sound pf m -> touched m m1 -> sound pf m1 /\ m_dim m1 = m_dim m /\ (ready m -> ready m1) /\ m_tau m1 = m_tau m.
Proof.
  intros [S0 S1] (a & p & g & -> & Hp & Hg). split; [|repeat split; trivial; apply H]. split; [exact S0|]. intros y b Hy Hb. cbn in Hy, Hb.
  destruct (S1 y b Hy Hb) as (A1 & A2 & A3 & A4 & A5 & A6 & A7 & A8 & A9 & A10 & A11 & A12 & A13 & A14 & A15 & A16 & A17 & A18 & A19).
  unfold wf, with_y0_amps, upd_spring, fas_ok in *. cbn in *. spl.
  - destruct Hp as [->|[_ Hp]]; trivial.
  - destruct (m_goal m) as [g0|]; [|now rewrite Hg]. destruct Hg as [->|(g' & -> & E)]; [trivial|].
    destruct g0 as [e|s|h|h]; cbn in E; try (injection E as <-; exact A13).
    destruct (Nat.eqb_spec (length (m_attr m)) (length (e_init e))) as [El|]; [|discriminate]. injection E as <-. destruct A13 as [[Ht [O1 O2]] Od]. unfold sub_dim in Od. cbn in *.
    split; [split; [exact Ht|]|exact Od]. cbn. now split.
Qed.

Lemma loop_touch m sp a p g sp' : sp' = Dsys (d_tau sp) (d_init sp) a p (d_spring sp) (d_mass sp) (d_dimy sp) ->
  forall ds t x xd, spring_loop (upd_spring m sp' g) sp' t x xd ds = spring_loop m sp t x xd ds.
Proof.
  intros Esp. induction ds as [|d ds IH]; intros t x xd; [reflexivity|]. cbn [spring_loop].
  change (m_dim (upd_spring m sp' g)) with (m_dim m). change (m_tau (upd_spring m sp' g)) with (m_tau m).
  change (scale_goal (upd_spring m sp' g)) with (scale_goal m).
  destruct (vop Rplus x _); [|reflexivity]. cbn [bind]. destruct (scale_goal m _); [|reflexivity]. cbn [bind].
  destruct (fit _ _); [|reflexivity]. cbn [bind].
  assert (E : forall tg dp x f, spring_at (upd_spring m sp' g) sp' tg dp x f = spring_at m sp tg dp x f).
  { intros. rewrite Esp. unfold spring_at, d_set_attr. cbn [d_dimy]. destruct (Nat.eqb _ _); reflexivity. }
  rewrite E. destruct (spring_at _ _ _ _ _ _); [|reflexivity]. cbn [bind]. destruct (vdiv _ _); [|reflexivity]. cbn [bind]. now rewrite IH.
Qed.
Lemma rows5_same m m' : (forall a b c d e, row m' a b c d e = row m a b c d e) ->
  forall a b c d e, rows5 m' a b c d e = rows5 m a b c d e.
Proof.
  intros H. induction a as [|x a IH]; intros [|? b] [|? c] [|? d] [|? e]; try reflexivity. cbn [rows5]. rewrite H.
  destruct (row m _ _ _ _ _); [|reflexivity]. cbn [bind]. now rewrite IH.
Qed.
Lemma touch_ana m m1 ts s : synced m -> touched m m1 -> ana pf m1 ts s = ana pf m ts s.
Proof.
  intros Sy Ht. pose proof (touched_goal m m1 Sy Ht) as Eg. destruct Ht as (a & p & g & -> & Hp & _). cbn in Eg. subst g.
  set (sp := Dsys _ _ a p _ _ _). unfold ana.
  change (m_phase (upd_spring m sp (m_goal m))) with (m_phase m). change (m_gating (upd_spring m sp (m_goal m))) with (m_gating m).
  change (m_goal (upd_spring m sp (m_goal m))) with (m_goal m). change (m_damping (upd_spring m sp (m_goal m))) with (m_damping m).
  change (m_dim (upd_spring m sp (m_goal m))) with (m_dim m). change (m_attr (upd_spring m sp (m_goal m))) with (m_attr m).
  change (m_spring (upd_spring m sp (m_goal m))) with sp.
  change (predictions pf (upd_spring m sp (m_goal m))) with (predictions pf m). change (factors (upd_spring m sp (m_goal m))) with (factors m).
  assert (Er : forall ds, spring_rows (upd_spring m sp (m_goal m)) ds = spring_rows m ds).
  { intros [|d ds]; [reflexivity|]. cbn [spring_rows]. change (m_spring (upd_spring m sp (m_goal m))) with sp.
    change (scale_goal (upd_spring m sp (m_goal m))) with (scale_goal m).
    destruct (scale_goal m _) as [tg|]; [|reflexivity]. cbn [bind]. change (d_init sp) with (d_init (m_spring m)).
    assert (E : forall dp x f, spring_at (upd_spring m sp (m_goal m)) sp tg dp x f = spring_at m (m_spring m) tg dp x f).
    { intros. unfold spring_at, d_set_attr, sp. cbn [d_dimy]. destruct (Nat.eqb _ _); reflexivity. }
    rewrite E. destruct (spring_at _ _ _ _ _ _); [|reflexivity]. cbn [bind]. now rewrite (loop_touch m (m_spring m) a p (m_goal m) sp eq_refl). }
  assert (Ed : match m_damping m with
     | Some ds => sub_ana ds ts
     | None => Ok (map (fun _ => damp_row (d_damp sp)) ts, map (fun _ => repeat 0 (length (damp_row (d_damp sp)))) ts) end =
     match m_damping m with
     | Some ds => sub_ana ds ts
     | None => Ok (map (fun _ => damp_row (d_damp (m_spring m))) ts, map (fun _ => repeat 0 (length (damp_row (d_damp (m_spring m))))) ts) end).
  { destruct (m_damping m); [reflexivity|]. unfold sp. cbn [d_damp]. destruct Hp as [->|[Hp _]]; [reflexivity|congruence]. }
  cbv zeta. rewrite Ed.
  repeat (match goal with |- bind ?x _ = bind ?x _ => destruct x as [?|]; [cbn [bind]|reflexivity] end;
          try match goal with q : solution |- _ => destruct q; cbv beta iota end).
  rewrite Er. destruct (spring_rows m _); [|reflexivity]. cbn [bind].
  rewrite !(rows5_same m (upd_spring m sp (m_goal m))) by reflexivity. reflexivity.
Qed.
Lemma touch_start m m1 : synced m -> touched m m1 -> m_start pf m1 None = m_start pf m None.
Proof.
  intros Sy Ht. pose proof (touched_goal m m1 Sy Ht) as Eg. destruct Ht as (a & p & g & -> & Hp & _). cbn in Eg. subst g.
  set (sp := Dsys _ _ a p _ _ _). unfold m_start. cbn [bind]. cbv zeta.
  change (m_phase (upd_spring m sp (m_goal m))) with (m_phase m). change (m_gating (upd_spring m sp (m_goal m))) with (m_gating m).
  change (m_goal (upd_spring m sp (m_goal m))) with (m_goal m). change (m_damping (upd_spring m sp (m_goal m))) with (m_damping m).
  change (m_dim (upd_spring m sp (m_goal m))) with (m_dim m). change (m_attr (upd_spring m sp (m_goal m))) with (m_attr m).
  change (m_spring (upd_spring m sp (m_goal m))) with sp. change (dim_x (upd_spring m sp (m_goal m))) with (dim_x m).
  change (ix_goal (upd_spring m sp (m_goal m))) with (ix_goal m). change (ix_phase (upd_spring m sp (m_goal m))) with (ix_phase m).
  change (ix_gating (upd_spring m sp (m_goal m))) with (ix_gating m). change (ix_damping (upd_spring m sp (m_goal m))) with (ix_damping m).
  change (ix_spring (upd_spring m sp (m_goal m))) with (ix_spring m). change (scale_goal (upd_spring m sp (m_goal m))) with (scale_goal m).
  destruct (match m_goal m with Some g => _ | None => _ end) as [g0|]; [|reflexivity]. cbn [bind].
  destruct (put_ix (ix_goal m) g0 _) as [x|]; [|reflexivity]. cbn [bind]. destruct (get_ix (ix_goal m) x) as [xg|]; [|reflexivity]. cbn [bind].
  destruct (scale_goal m xg) as [tg|]; [|reflexivity]. cbn [bind].
  assert (Ha : d_set_attr sp tg = let* s := d_set_attr (m_spring m) tg in Ok (d_set_damp s p)).
  { unfold d_set_attr, sp. cbn. now destruct (Nat.eqb _ _). }
  rewrite Ha. clear Ha. destruct (d_set_attr (m_spring m) tg) as [s|] eqn:Es; [|reflexivity]. cbn [bind].
  assert (Hs : d_damp s = d_damp (m_spring m)) by (unfold d_set_attr in Es; destruct (Nat.eqb _ _); [now injection Es as <-|discriminate]).
  destruct (m_damping m) as [ds|] eqn:Ed.
  - destruct (sub_diffeq ds (sub_init ds)); [|reflexivity]. cbn [bind]. destruct (put_ix (ix_damping m) _ _) as [x1|]; [|reflexivity]. cbn [bind].
    destruct (get_ix (ix_damping m) x1) as [xda|]; [|reflexivity]. reflexivity.
  - assert (Ep : d_set_damp s p = s).
    { destruct Hp as [->|[Hp _]]; [|congruence]. rewrite <- Hs. now destruct s. }
    rewrite Ep. reflexivity.
Qed.
Lemma start_touch m m1 x xd : m_start pf m None = Ok (m1, x, xd) -> touched m m1.
Proof.
  unfold m_start. cbn [bind]. cbv zeta.
  destruct (match m_goal m with Some g => _ | None => _ end) as [g0|]; [|discriminate]. cbn [bind].
  destruct (put_ix (ix_goal m) g0 _) as [x0|]; [|discriminate]. cbn [bind]. destruct (get_ix (ix_goal m) x0) as [xg|]; [|discriminate]. cbn [bind].
  destruct (scale_goal m xg) as [tg|]; [|discriminate]. cbn [bind].
  destruct (d_set_attr (m_spring m) tg) as [s|] eqn:Es; [|discriminate]. cbn [bind].
  assert (Es' : s = Dsys (d_tau (m_spring m)) (d_init (m_spring m)) tg (d_damp (m_spring m)) (d_spring (m_spring m)) (d_mass (m_spring m)) (d_dimy (m_spring m))).
  { unfold d_set_attr in Es. destruct (Nat.eqb _ _); [now injection Es as <-|discriminate]. }
  clear Es. subst s. set (s := Dsys _ _ tg _ _ _ _).
  assert (H2 : forall x' s', match m_damping m with
      | Some ds => let* _ := sub_diffeq ds (sub_init ds) in let* x := put_ix (ix_damping m) (sub_init ds) x0 in
                   let* xda := get_ix (ix_damping m) x in Ok (x, d_set_damp s (PVec xda))
      | None => let* full_damp := full (m_dim m) (d_damp s) in let* x := put_ix (ix_damping m) full_damp x0 in Ok (x, s) end = Ok (x', s') ->
      exists p, s' = d_set_damp s p /\ (p = d_damp (m_spring m) \/ (m_damping m <> None /\ par_ok p (m_dim m)))).
  { intros x' s'. destruct (m_damping m) as [ds|].
    - destruct (sub_diffeq ds (sub_init ds)); [|discriminate]. cbn [bind]. destruct (put_ix (ix_damping m) _ _) as [x1|]; [|discriminate]. cbn [bind].
      destruct (get_ix (ix_damping m) x1) as [xda|] eqn:Ex; [|discriminate]. cbn [bind]. intros E. injection E as _ <-. exists (PVec xda).
      split; [reflexivity|right]. split; [discriminate|]. cbn.
      unfold get_ix, ix_damping in Ex. cbn [fst snd] in Ex. destruct (Nat.leb_spec (m_dim m + m_dim m + d_goal m + 1 + 1 + m_dim m) (length x1)); [|discriminate].
      injection Ex as <-. rewrite firstn_length_le; [reflexivity|]. rewrite skipn_length. lia.
    - destruct (full _ _); [|discriminate]. cbn [bind]. destruct (put_ix _ _ _); [|discriminate]. cbn [bind]. intros E. injection E as _ <-.
      exists (d_damp (m_spring m)). split; [reflexivity|now left]. }
  destruct (match m_damping m with Some ds => _ | None => _ end) as [[x1 s1]|]; [|discriminate]. destruct (H2 _ _ eq_refl) as (p & -> & Hp). cbn [bind].
  destruct (d_diffeq _ _); [|discriminate]. cbn [bind]. destruct (put_ix _ _ _); [|discriminate]. cbn [bind].
  destruct (sub_diffeq _ _); [|discriminate]. cbn [bind]. destruct (put_ix _ _ _); [|discriminate]. cbn [bind].
  destruct (sub_diffeq _ _); [|discriminate]. cbn [bind]. destruct (put_ix _ _ _) as [x2|]; [|discriminate]. cbn [bind].
  destruct (m_diffeq pf _ x2) as [[m2 xd2]|] eqn:E; [|discriminate]. cbn [bind fst snd]. intros H. injection H as <- _ _.
  apply diffeq_touch in E. eapply touched_trans; [|exact E]. exists tg, p, (m_goal m). split; [reflexivity|]. split; [trivial|].
  destruct (m_goal m); [now left|trivial].
Qed.

(** computing has no effect on later results *)
Lemma reply_touched m m1 c : synced m -> touched m m1 ->
  match reply1 pf m1 c, reply1 pf m c with
  | Err e, Err e' => e = e'
  | Ok (m1', a), Ok (_, a') => a = a' /\ touched m m1'
  | _, _ => False
  end.
Proof.
  intros Sy Ht. destruct c as [x| |ts s]; cbn [reply1].
  - rewrite (touch_diffeq m m1 x Ht). destruct (m_diffeq pf m x) as [[m2 xd]|] eqn:E; cbn; [|reflexivity]. split; [reflexivity|].
    now apply diffeq_touch in E.
  - rewrite (touch_start m m1 Sy Ht). destruct (m_start pf m None) as [[[m2 x] xd]|] eqn:E; cbn; [|reflexivity]. split; [reflexivity|].
    now apply start_touch in E.
  - rewrite (touch_ana m m1 ts s Sy Ht). destruct (ana pf m ts s); cbn; [|reflexivity]. now split.
Qed.
Lemma replies_touched cs : forall m m1, synced m -> touched m m1 -> replies pf m1 cs = fresh_replies pf m cs.
Proof.
  induction cs as [|c cs IH]; intros m m1 Sy Ht; [reflexivity|]. cbn [replies fresh_replies].
  pose proof (reply_touched m m1 c Sy Ht) as H.
  destruct (reply1 pf m1 c) as [[m2 a]|e], (reply1 pf m c) as [[m3 b]|e']; try contradiction.
  - destruct H as [-> H]. now rewrite (IH m m2).
  - now rewrite H.
Qed.
Lemma no_side_effects m cs : synced m -> replies pf m cs = fresh_replies pf m cs.
Proof. intros Sy. apply replies_touched; trivial. apply touched_refl. Qed.
End S.
