(** DMPs are described correctly. *)
From Coq Require Import String.
From Verif Require Import Base BaseLemmas DynModel ParamModel TrajModel DmpModel IntModel AliasModel AliasDyn AliasFa AliasDmp AliasSpec AliasProofs AliasProofs2 AliasProofs3.
Open Scope R_scope.

Lemma sub_attr_put g : sub_put_attr (sub_attr g) g = g.
Proof. destruct g as [[e|s|s|s]|]; cbn; trivial; destruct e || destruct s; cbn; now rewrite ?pput_pget. Qed.
Lemma sub_start_put g : sub_put_start (sub_start g) g = g.
Proof. destruct g as [[e|s|s|s]|]; cbn; trivial; destruct e || destruct s; reflexivity. Qed.
Lemma opt_list_put o : opt_put (opt_list o) o = o.
Proof. now destruct o. Qed.
Lemma dmp_put f m : (f < m_nf m)%nat -> m_put f (m_get f m) m = m.
Proof.
  intros Hf. unfold m_put, m_get. cbv zeta.
  destruct f as [|[|[|[|[|[|[|[|[|f]]]]]]]]].
  - now destruct m.
  - rewrite opt_list_put. now destruct m.
  - now destruct m.
  - destruct m as [? ? ? ? ? ? ? [] ? ? ? ? ? ? ? ?]; reflexivity.
  - rewrite sub_start_put. now destruct m.
  - rewrite sub_attr_put. now destruct m.
  - rewrite opt_list_put. now destruct m.
  - rewrite opt_list_put. now destruct m.
  - rewrite pput_pget. destruct m as [? ? ? ? ? ? ? [] ? ? ? ? ? ? ? ?]; reflexivity.
  - replace (S (S (S (S (S (S (S (S (S f)))))))) - 9)%nat with f by lia. unfold m_nf in Hf.
    assert (Q : option_map (fas_put f (nth f (m_arrays m) [])) (m_fas m) = m_fas m).
    { unfold m_arrays, fas_of, pdmp_of in *. cbn [p_fas] in *. destruct (m_fas m) as [fs|]; cbn; [|reflexivity]. f_equal. apply fas_put_get. lia. }
    rewrite Q. now destruct m.
Qed.

Section S.
Variable pf : nat -> list (string * pval) -> R -> res R.
Variable tf : nat -> list R -> list R -> res (list (string * pval)).
Notation K := (dmps pf tf).

(** ** what differential_equation changes *)
Definition goal_with (m : dmp) : option sub :=
  match m_goal m with Some (SubE e) => Some (SubE (Esys (e_tau e) (e_init e) (m_attr m) (e_alpha e))) | g => g end.
Definition spring_with (m : dmp) (a : list R) (p : param) : dsys :=
  Dsys (d_tau (m_spring m)) (d_init (m_spring m)) a p (d_spring (m_spring m)) (d_mass (m_spring m)) (d_dimy (m_spring m)).
Definition driven (m m1 : dmp) : Prop :=
  exists a p, m1 = upd_spring m (spring_with m a p) (goal_with m) /\ (m_goal m = None -> a = m_attr m) /\ (m_damping m = None -> p = d_damp (m_spring m)).
Lemma diffeq_driven m m1 x xd : m_diffeq pf m x = Ok (m1, xd) -> driven m m1.
Proof.
  unfold m_diffeq. cbv zeta.
  set (c1 := match m_goal m with Some g0 => _ | None => _ end).
  assert (H1 : forall s g1 v, c1 = Ok (s, g1, v) -> g1 = goal_with m /\ exists a, s = spring_with m a (d_damp (m_spring m)) /\ (m_goal m = None -> a = m_attr m)).
  { assert (Hs : forall t s, d_set_attr (m_spring m) t = Ok s -> s = spring_with m t (d_damp (m_spring m))).
    { intros t s. unfold d_set_attr. destruct (Nat.eqb _ _); [|discriminate]. intros E. now injection E as <-. }
    intros s g1 v. unfold c1, goal_with. destruct (m_goal m) as [g0|].
    - destruct (sub_set_attr g0 (m_attr m)) as [g'|] eqn:Eg; [|discriminate]. cbn [bind]. destruct (get_ix (ix_goal m) x); [|discriminate]. cbn [bind].
      destruct (sub_diffeq _ _); [|discriminate]. cbn [bind]. destruct (scale_goal _ _) as [tg|]; [|discriminate]. cbn [bind].
      destruct (d_set_attr (m_spring m) _) eqn:E; [|discriminate]. cbn [bind]. intros H. injection H as <- <- _. split; [|exists tg; split; [now apply Hs|discriminate]].
      destruct g0; cbn in Eg; try (injection Eg as <-; reflexivity). destruct (Nat.eqb _ _); [now injection Eg as <-|discriminate].
    - destruct (d_set_attr (m_spring m) _) eqn:E; [|discriminate]. cbn [bind]. intros H. injection H as <- <- _. split; [reflexivity|]. exists (m_attr m). split; [now apply Hs|reflexivity]. }
  destruct c1 as [[[sp1 goal1] xdg]|]; [|discriminate]. destruct (H1 _ _ _ eq_refl) as (-> & a & -> & Ha). clear H1. cbn [bind].
  destruct (put_ix (ix_goal m) xdg _) as [xd1|]; [|discriminate]. cbn [bind].
  assert (H2 : forall s v, match m_damping m with
                 | Some ds => let* xda := get_ix (ix_damping m) x in let* xdd := sub_diffeq ds xda in Ok (d_set_damp (spring_with m a (d_damp (m_spring m))) (PVec xda), xdd)
                 | None => Ok (spring_with m a (d_damp (m_spring m)), repeat 0 (m_dim m)) end = Ok (s, v) ->
       exists p, s = spring_with m a p /\ (m_damping m = None -> p = d_damp (m_spring m))).
  { intros s v. destruct (m_damping m) as [ds|].
    - destruct (get_ix (ix_damping m) x) as [xda|]; [|discriminate]. cbn [bind]. destruct (sub_diffeq ds xda) as [xdd|]; [|discriminate].
      cbn [bind]. intros E. injection E as <- _. exists (PVec xda). split; [reflexivity|discriminate].
    - intros E. injection E as <- _. exists (d_damp (m_spring m)). now split. }
  destruct (match m_damping m with Some ds => _ | None => _ end) as [[sp2 xdd]|]; [|discriminate].
  destruct (H2 _ _ eq_refl) as (p & -> & Hp). cbn [bind].
  destruct (put_ix _ _ _); [|discriminate]. cbn [bind]. destruct (get_ix _ _); [|discriminate]. cbn [bind].
  destruct (d_diffeq _ _); [|discriminate]. cbn [bind]. destruct (get_ix _ _); [|discriminate]. cbn [bind].
  destruct (sub_diffeq _ _); [|discriminate]. cbn [bind]. destruct (put_ix _ _ _); [|discriminate]. cbn [bind].
  destruct (get_ix _ _); [|discriminate]. cbn [bind]. destruct (sub_diffeq _ _); [|discriminate]. cbn [bind]. destruct (put_ix _ _ _); [|discriminate]. cbn [bind].
  destruct (one _); [|discriminate]. cbn [bind]. destruct (one _); [|discriminate]. cbn [bind]. destruct (predictions _ _ _); [|discriminate]. cbn [bind].
  destruct (factors _ _); [|discriminate]. cbn [bind]. destruct (add_forcing _ _ _ _); [|discriminate]. cbn [bind]. destruct (put_ix _ _ _); [|discriminate]. cbn [bind].
  intros E. injection E as <- _. exists a, p. split; [reflexivity|]. now split.
Qed.
Lemma driven_trans m m1 m2 : driven m m1 -> driven m1 m2 -> driven m m2.
Proof.
  intros (a & p & -> & Ha & Hp) (b & q & -> & Hb & Hq). exists b, q. split.
  - unfold upd_spring, spring_with, goal_with. cbn. destruct (m_goal m) as [[e|s|s|s]|]; reflexivity.
  - split.
    + intros E. apply Hb. cbn. unfold goal_with. now rewrite E.
    + intros E. rewrite Hq by exact E. cbn. now apply Hp.
Qed.
Lemma driven_first m a p m1 : (m_damping m = None -> p = d_damp (m_spring m)) -> driven (upd_spring m (spring_with m a p) (m_goal m)) m1 -> driven m m1.
Proof.
  intros Hp (b & q & -> & Hb & Hq). exists b, q. split; [reflexivity|]. split; [exact Hb|]. intros E. rewrite Hq by exact E. cbn. now apply Hp.
Qed.
Lemma step_driven me m m1 dt x x1 xd : m_step pf me m dt x = Ok (m1, x1, xd) -> driven m m1.
Proof.
  destruct me; cbn [m_step].
  - unfold m_step_rk. destruct (Nat.eqb _ _); [|discriminate].
    destruct (m_diffeq pf m x) as [[m2 k1]|] eqn:E1; [|discriminate]. cbn [bind]. destruct (vop _ _ _) as [i2|]; [|discriminate]. cbn [bind].
    destruct (m_diffeq pf m2 i2) as [[m3 k2]|] eqn:E2; [|discriminate]. cbn [bind]. destruct (vop _ _ _) as [i3|]; [|discriminate]. cbn [bind].
    destruct (m_diffeq pf m3 i3) as [[m4 k3]|] eqn:E3; [|discriminate]. cbn [bind]. destruct (vop _ _ _) as [i4|]; [|discriminate]. cbn [bind].
    destruct (m_diffeq pf m4 i4) as [[m5 k4]|] eqn:E4; [|discriminate]. cbn [bind]. destruct (vop _ _ _); [|discriminate]. cbn [bind].
    destruct (vop _ _ _); [|discriminate]. cbn [bind]. destruct (vop _ _ _); [|discriminate]. cbn [bind]. destruct (vop _ _ _) as [x'|]; [|discriminate]. cbn [bind].
    destruct (m_diffeq pf m5 x') as [[m6 k5]|] eqn:E5; [|discriminate]. cbn [bind]. intros H. injection H as <- _ _.
    apply diffeq_driven in E1, E2, E3, E4, E5. eauto using driven_trans.
  - unfold m_step_euler. destruct (Nat.eqb _ _); [|discriminate].
    destruct (m_diffeq pf m x) as [[m2 k1]|] eqn:E1; [|discriminate]. cbn [bind]. destruct (vop _ _ _); [|discriminate]. cbn [bind]. intros H. injection H as <- _ _.
    now apply diffeq_driven in E1.
Qed.
Lemma loop_driven me ts : forall m m1 m0 t x s, driven m0 m -> m_loop pf me m t x ts = Ok (m1, s) -> driven m0 m1.
Proof.
  induction ts as [|t' ts IH]; intros m m1 m0 t x s D H; cbn [m_loop] in H.
  - injection H as <- _. exact D.
  - destruct (m_step pf me m (t' - t) x) as [[[m2 x'] xd']|] eqn:E; [|discriminate]. cbn [bind] in H.
    destruct (m_loop pf me m2 t' x' ts) as [[m3 [xs xds]]|] eqn:E2; [|discriminate]. cbn [bind] in H. injection H as <- _.
    eapply IH; [|exact E2]. eapply driven_trans; [exact D|]. eapply step_driven; exact E.
Qed.
Lemma start_driven m m1 x xd : m_start pf m None = Ok (m1, x, xd) -> driven m m1.
Proof.
  unfold m_start. cbn [bind]. cbv zeta.
  destruct (match m_goal m with Some g => _ | None => _ end) as [g0|]; [|discriminate]. cbn [bind].
  destruct (put_ix (ix_goal m) g0 _) as [x0|]; [|discriminate]. cbn [bind]. destruct (get_ix (ix_goal m) x0) as [xg|]; [|discriminate]. cbn [bind].
  destruct (scale_goal m xg) as [tg|]; [|discriminate]. cbn [bind].
  destruct (d_set_attr (m_spring m) tg) as [s|] eqn:Es; [|discriminate]. cbn [bind].
  assert (Es' : s = spring_with m tg (d_damp (m_spring m))).
  { unfold d_set_attr in Es. destruct (Nat.eqb _ _); [now injection Es as <-|discriminate]. }
  clear Es. subst s. set (s := spring_with m tg _).
  assert (H2 : forall x' s', match m_damping m with
      | Some ds => let* _ := sub_diffeq ds (sub_init ds) in let* x := put_ix (ix_damping m) (sub_init ds) x0 in
                   let* xda := get_ix (ix_damping m) x in Ok (x, d_set_damp s (PVec xda))
      | None => let* full_damp := full (m_dim m) (d_damp s) in let* x := put_ix (ix_damping m) full_damp x0 in Ok (x, s) end = Ok (x', s') ->
      exists p, s' = spring_with m tg p /\ (m_damping m = None -> p = d_damp (m_spring m))).
  { intros x' s'. destruct (m_damping m) as [ds|].
    - destruct (sub_diffeq ds (sub_init ds)); [|discriminate]. cbn [bind]. destruct (put_ix (ix_damping m) _ _) as [x1|]; [|discriminate]. cbn [bind].
      destruct (get_ix (ix_damping m) x1) as [xda|]; [|discriminate]. cbn [bind]. intros E. injection E as _ <-. exists (PVec xda).
      split; [reflexivity|discriminate].
    - destruct (full _ _); [|discriminate]. cbn [bind]. destruct (put_ix _ _ _); [|discriminate]. cbn [bind]. intros E. injection E as _ <-.
      exists (d_damp (m_spring m)). now split. }
  destruct (match m_damping m with Some ds => _ | None => _ end) as [[x1 s1]|]; [|discriminate]. destruct (H2 _ _ eq_refl) as (p & -> & Hp). cbn [bind].
  destruct (d_diffeq _ _); [|discriminate]. cbn [bind]. destruct (put_ix _ _ _); [|discriminate]. cbn [bind].
  destruct (sub_diffeq _ _); [|discriminate]. cbn [bind]. destruct (put_ix _ _ _); [|discriminate]. cbn [bind].
  destruct (sub_diffeq _ _); [|discriminate]. cbn [bind]. destruct (put_ix _ _ _) as [x2|]; [|discriminate]. cbn [bind].
  destruct (m_diffeq pf _ x2) as [[m2 xd2]|] eqn:E; [|discriminate]. cbn [bind fst snd]. intros H. injection H as <- _ _.
  apply diffeq_driven in E. eapply driven_first; [exact Hp|exact E].
Qed.
Lemma integrate_driven me m ts m1 s : m_integrate pf me m ts = Ok (m1, s) -> driven m m1.
Proof.
  unfold m_integrate. destruct (m_start pf m None) as [[[m2 x] xd]|] eqn:E; [|discriminate]. cbn [bind]. destruct ts as [|t ts]; [discriminate|].
  destruct (m_loop pf me m2 t x ts) as [[m3 [xs xds]]|] eqn:E2; [|discriminate]. cbn [bind]. intros H. injection H as <- _.
  eapply loop_driven; [|exact E2]. eapply start_driven; exact E.
Qed.

(** ** the classes of calls *)
Definition mfine (c : m_call) (m : dmp) (args : list (list R)) (m' : dmp) (rs : list (list R)) : Prop :=
  (forall f, (f < m_nf m')%nat -> sourced K (Some m) args (m_binds c m args f) f (m_get f m') /\
     forall k off len, m_binds c m args f = Arg k off len -> In k (dmp_keeps c m)) /\
  (forall j, (j < length rs)%nat -> match nth j (m_rets c m') RNew with
     | RNew => True
     | RField f off len => In j (dmp_shares c m') /\ (f < m_nf m')%nat /\ (off + len <= length (m_get f m'))%nat /\ nth j rs [] = slice off len (m_get f m')
     end).
Lemma mkeep m args f v : (f < m_nf m)%nat -> v = m_get f m -> sourced K (Some m) args Keep f v.
Proof. intros H1 H2. exact (conj H1 H2). Qed.
Lemma keep_all c m args m' rs : m_nf m' = m_nf m -> (forall f, (f < m_nf m)%nat -> m_get f m' = m_get f m) ->
  (forall f, m_binds c m args f = Keep) -> m_rets c m' = [] -> mfine c m args m' rs.
Proof.
  intros Hn Hg Hb Hr. split.
  - intros f Hf. rewrite Hb. rewrite Hn in Hf. split; [apply mkeep; [exact Hf|now apply Hg]|discriminate].
  - intros j _. rewrite Hr. now destruct j.
Qed.
Lemma mgetter c m f len rs : (f < m_nf m)%nat -> (forall f, m_binds c m [] f = Keep) -> m_rets c m = [RField f 0 len] -> In 0%nat (dmp_shares c m) ->
  (len <= length (m_get f m))%nat -> rs = [slice 0 len (m_get f m)] -> mfine c m [] m rs.
Proof.
  intros Hf Hb Hr Hs Hl ->. split.
  - intros g Hg. rewrite Hb. split; [now apply mkeep|discriminate].
  - intros [|j] Hj; [|cbn in Hj; lia]. rewrite Hr. cbn [nth]. auto.
Qed.
Lemma nf_nine m : (9 <= m_nf m)%nat.
Proof. unfold m_nf. lia. Qed.
Lemma driven_fine c m args m' rs : driven m m' -> (forall f, m_binds c m args f = drive_binds m f) -> m_rets c m' = [] -> mfine c m args m' rs.
Proof.
  intros (a & p & -> & Ha & Hp) Hb Hr. split; [|intros j _; rewrite Hr; now destruct j].
  intros f Hf. rewrite Hb. change (m_nf (upd_spring m (spring_with m a p) (goal_with m))) with (m_nf m) in Hf.
  assert (N9 := nf_nine m).
  destruct f as [|[|[|[|[|[|[|[|[|f]]]]]]]]]; cbn [drive_binds]; try (split; [apply mkeep; [exact Hf|reflexivity]|discriminate]).
  - destruct (m_goal m) eqn:Eg; (split; [|discriminate]); [exact I|]. split; [change (nf K m) with (m_nf m); lia|]. cbn. now apply Ha.
  - split; [|discriminate]. apply mkeep; [exact Hf|]. cbn. unfold goal_with. destruct (m_goal m) as [[e|s|s|s]|]; reflexivity.
  - destruct (m_goal m) as [[e|s|s|s]|] eqn:Eg; (split; [|discriminate]);
      try (apply mkeep; [exact Hf|]; cbn; unfold goal_with; now rewrite Eg). split; [change (nf K m) with (m_nf m); lia|]. cbn. unfold goal_with. now rewrite Eg.
  - destruct (m_damping m) eqn:Ed; (split; [|discriminate]); [exact I|]. apply mkeep; [exact Hf|]. cbn. now rewrite (Hp eq_refl).
Qed.
Lemma arg_src m (args : list (list R)) k off len f v keeps : (k < length args)%nat -> (off + len <= length (nth k args []))%nat -> v = slice off len (nth k args []) ->
  In k keeps -> sourced K (Some m) args (Arg k off len) f v /\ forall k' off' len', Arg k off len = Arg k' off' len' -> In k' keeps.
Proof. intros H1 H2 H3 H4. split; [exact (conj H1 (conj H2 H3))|]. intros k' off' len' Q. now injection Q as <- _ _. Qed.
Lemma keep_src' m args f v keeps : (f < m_nf m)%nat -> v = m_get f m -> sourced K (Some m) args Keep f v /\ forall k off len, Keep = Arg k off len -> In k keeps.
Proof. intros H1 H2. split; [now apply mkeep|discriminate]. Qed.
Lemma new_src m args f v keeps : sourced K (Some m) args New f v /\ forall k off len, New = Arg k off len -> In k keeps.
Proof. split; [exact I|discriminate]. Qed.

(** the y_init and y_attr setters *)
Lemma set_y0_form m y m' : set_y0 m y = Ok m' -> length y = m_dim m /\ exists sp g, m' = upd_y0 m y sp g /\ d_attr sp = d_attr (m_spring m) /\ d_damp sp = d_damp (m_spring m) /\
  sub_attr g = sub_attr (m_goal m) /\ (match m_goal m with Some _ => m_req m = true | None => True end -> g = m_goal m) /\
  (match g with Some (SubE _) => True | _ => False end <-> match m_goal m with Some (SubE _) => True | _ => False end) /\ (g = None <-> m_goal m = None).
Proof.
  unfold set_y0. destruct (Nat.eqb_spec (length y) (m_dim m)) as [L|]; [|discriminate]. intros H. split; [exact L|].
  destruct (d_set_y_init (m_spring m) y) as [sp|] eqn:Es; [|discriminate]. cbn [bind] in H.
  assert (S : d_attr sp = d_attr (m_spring m) /\ d_damp sp = d_damp (m_spring m)).
  { unfold d_set_y_init in Es. destruct (set_y_init _ _ _); [|discriminate]. cbn in Es. now injection Es as <-. }
  destruct S as [S1 S2]. exists sp.
  destruct (m_goal m) as [g0|] eqn:Eg.
  - destruct (m_req m) eqn:Er.
    + cbn [bind] in H. exists (Some g0). split; [congruence|]. split; [exact S1|]. split; [exact S2|]. split; [reflexivity|]. split; [reflexivity|]. split; tauto.
    + destruct (sub_set_y_init g0 y) as [g1|] eqn:E1; [|discriminate]. cbn [bind] in H. exists (Some g1). split; [congruence|]. split; [exact S1|]. split; [exact S2|].
      unfold sub_set_y_init in E1. destruct (set_y_init _ _ _) as [x|]; [|discriminate]. cbn in E1. destruct g0; injection E1 as <-; (split; [reflexivity|]); (split; [discriminate|]); split; cbn; try tauto; split; discriminate.
  - cbn [bind] in H. exists None. split; [congruence|]. split; [exact S1|]. split; [exact S2|]. split; [reflexivity|]. split; [reflexivity|]. split; tauto.
Qed.
Lemma goal_attr_form m y g : goal_attr m y = Ok g -> sub_start g = sub_start (m_goal m) /\
  (sub_attr g = match m_goal m with Some (SubE _) => if m_req m then sub_attr (m_goal m) else y | _ => sub_attr (m_goal m) end).
Proof.
  unfold goal_attr. destruct (m_goal m) as [g0|]; [|intros H; now injection H as <-].
  destruct (m_req m); [intros H; injection H as <-; split; [reflexivity|]; now destruct g0|].
  destruct (sub_set_attr g0 y) as [g1|] eqn:E; [|discriminate]. cbn [bind]. intros H. injection H as <-.
  destruct g0; cbn in E; try (injection E as <-; split; reflexivity). destruct (Nat.eqb _ _); [|discriminate]. injection E as <-. split; reflexivity.
Qed.
Lemma set_yattr_form m y m' : set_yattr m y = Ok m' -> length y = m_dim m /\ exists g, m' = upd_attr m y g /\ goal_attr m y = Ok g.
Proof.
  unfold set_yattr. destruct (Nat.eqb_spec (length y) (m_dim m)) as [L|]; [|discriminate]. intros H. split; [exact L|].
  destruct (goal_attr m y) as [g|] eqn:E; [|discriminate]. cbn [bind] in H. exists g. split; [congruence|reflexivity].
Qed.
End S.
