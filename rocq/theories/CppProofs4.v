(** Proofs about the C++ counterpart: start and analytical solution. *)
From Coq Require Import String.
From Verif Require Import Base BaseLemmas DynModel DynSpec DynProofs ParamModel FaModel TrajModel DmpModel DmpSpec DmpProofs DmpProofs2 DmpProofs3 DmpProofs5 DmpProofs6 DmpProofs14 CppModel CppSpec CppProofs CppProofs2 CppProofs3.
Open Scope string_scope.
Open Scope R_scope.

Lemma csub_init_of s : sub_portable s -> csub_init (csub_of s) = sub_init s.
Proof. destruct s as [e|g|h|t]; cbn; intros H; trivial; [contradiction|]. now rewrite H. Qed.
Lemma zip3_map {A B C D} (f : A -> B) (g : A -> C) (h : A -> D) : forall l, zip3 (map f l) (map g l) (map h l) = map (fun a => (f a, g a, h a)) l.
Proof. induction l as [|a l IH]; cbn; [reflexivity|]. now rewrite IH. Qed.
Lemma zip4_map {A} (f g h k : A -> list R) : forall l,
  zip4 (map f l) (map g l) (map h l) (map k l) = map (fun a => (f a ++ g a ++ h a ++ k a)%list) l.
Proof. induction l as [|a l IH]; cbn; [reflexivity|]. now rewrite IH. Qed.
Lemma combine_map {A B C} (f : A -> B) (g : A -> C) : forall l, combine (map f l) (map g l) = map (fun a => (f a, g a)) l.
Proof. induction l as [|a l IH]; cbn; [reflexivity|]. now rewrite IH. Qed.

Section Same.
Variable ex : R -> R.
Variable kinds : nat -> fa_kind.
Notation pf := (py_predict ex kinds).
Variable m : dmp.
Hypothesis W : wf pf m.
Hypothesis Po : portable kinds m.
Notation n := (m_dim m).
Notation c := (img kinds m).
Notation dmps := (damps m).

Definition startx (p a : R) : list R := asm (d_init (m_spring m)) (opt (m_y0 m) []) [p] [a] dmps.
Lemma start_same :
  exists g x xd, m_start pf m None = Ok (m_next m g, x, xd) /\ length g = n /\ length x = dim_x m /\ length xd = dim_x m /\
    c_start ex c = Ok (img kinds (m_next m g), visible n x, visible n xd).
Proof.
  pose proof Po as (Ha & Hreq & Hda & (y0 & Ey & Ly & Ei & t & at0 & al & Eg & La) & Hdim & Htau & (d & Ed & Ek) & Em & Hp & Hga & _).
  assert (Hge : opt_ok n (m_goal m)) by apply W. assert (Hpo : sub_ok (m_phase m)) by apply W. assert (Hpd : sub_dim (m_phase m) = 1%nat) by apply W.
  assert (Hgo : sub_ok (m_gating m)) by apply W. assert (Hgd : sub_dim (m_gating m) = 1%nat) by apply W.
  assert (Hl : length (d_init (m_spring m)) = (2 * n)%nat) by apply W.
  rewrite Eg in Hge. destruct Hge as [[Hte _] _]. cbn [sub_tau e_tau] in Hte.
  destruct (list1 _ Hpd) as [p Ep]. destruct (list1 _ Hgd) as [a Ea].
  set (e1 := Esys t y0 at0 (PScal al)) in *.
  destruct (exp_same_rate e1 al y0) as (gd & G1 & G2 & G3); [exact Hte|reflexivity|cbn; lia|].
  destruct (sub_same_rate (m_phase m) (sub_init (m_phase m))) as (pd & P1 & P2 & P3); [trivial..|reflexivity|].
  destruct (sub_same_rate (m_gating m) (sub_init (m_gating m))) as (ad & A1 & A2 & A3); [trivial..|reflexivity|].
  pose proof (goal_dim pf m W) as GD.
  assert (LX : same_layout n (d_init (m_spring m)) y0 [p] [a] dmps) by (repeat split; trivial; unfold damps; apply repeat_length).
  destruct (diffeq_same ex kinds m W Po (startx p a)) as (g & xd & E1 & Lg & Lxd & _ & E2).
  { unfold startx. rewrite Ey. now apply (asm_length m GD). }
  exists g, (startx p a), xd. split; [|split; [trivial|split; [unfold startx; rewrite Ey; now apply (asm_length m GD)|split; [trivial|]]]].
  - unfold m_start. cbn [bind]. cbv zeta. rewrite Eg, Hda. cbn [sub_diffeq]. change (sub_init (SubE e1)) with y0. rewrite G1. cbn [bind].
    rewrite (asm_zero m GD). pose proof (zeros_layout m) as (Z1 & Z2 & Z3 & Z4 & Z5).
    rewrite (put_goal m GD y0 y0) by (repeat split; trivial; apply fit_same; lia). cbn [bind].
    rewrite (get_goal m GD) by (repeat split; trivial; lia). cbn [bind].
    unfold scale_goal. rewrite Hreq. cbn [bind]. rewrite (spring_attr pf m W) by exact Ly. cbn [bind d_damp full]. rewrite Ed. cbn [full bind].
    rewrite (put_damping m GD (repeat d n) dmps) by (try (repeat split; trivial; lia); unfold damps; rewrite Ed; apply fit_same, repeat_length). cbn [bind].
    destruct (spring_diffeq pf m W _ (d_init (m_spring m)) y0 (d_damp (m_spring m)) dmps (spring_attr pf m W y0 Ly)) as (xs & Ed1 & _); trivial.
    { rewrite Ed. exact I. }
    { intros i Hi. unfold damps. rewrite nth_repeat_lt by trivial. rewrite Ed. reflexivity. }
    unfold d_set_damp in Ed1. cbn [d_tau d_init d_attr d_damp d_spring d_mass d_dimy] in Ed1. rewrite Ed in Ed1. cbn [d_init]. rewrite Ed1. cbn [bind].
    rewrite (put_spring m _ (d_init (m_spring m))) by (try (repeat split; trivial; unfold damps; apply repeat_length); now apply fit_same). cbn [bind].
    rewrite P1. cbn [bind]. rewrite (put_phase m GD (sub_init (m_phase m)) [p]) by (try (repeat split; trivial; unfold damps; apply repeat_length); rewrite Ep; reflexivity). cbn [bind].
    rewrite A1. cbn [bind]. rewrite (put_gating m GD (sub_init (m_gating m)) [a]) by (try (repeat split; trivial; unfold damps; apply repeat_length); rewrite Ea; reflexivity). cbn [bind].
    unfold startx in *. rewrite Ey in *. cbn [opt] in *. rewrite <- Eg. rewrite <- Ed. rewrite (touch_diffeq pf m), E1; [reflexivity|].
    exists y0, (d_damp (m_spring m)), (m_goal m). split; [reflexivity|]. split; [now left|]. rewrite Eg. now left.
  - unfold c_start. cbn [img cm_goal cm_attr cm_spring cm_phase cm_gating cm_tau cm_y0]. rewrite Eg, Ey. unfold exp_set_init. cbn [opt].
    change (ce_init (cexp_of e1)) with y0. rewrite Nat.eqb_refl. cbn [bind ce_init].
    change (Cexp (ce_tau (cexp_of e1)) y0 (ce_attr (cexp_of e1)) (ce_alpha (cexp_of e1))) with (cexp_of e1). rewrite G2. cbn [bind].
    change (ce_init (cexp_of e1)) with y0.
    assert (EI : cspring_init (new_cspring (m_tau m) y0 (scal (d_damp (m_spring m)))) = d_init (m_spring m)).
    { unfold cspring_init. cbn [new_cspring cd_y0]. now rewrite Ly, Ei. }
    rewrite EI. destruct (cspring_ok ex kinds m W Po (d_init (m_spring m)) y0 Hl Ly) as (xs & Es & _). rewrite Ey in Es. cbn [opt] in Es. rewrite Es.
    cbn [bind deref]. rewrite !csub_init_of by trivial. rewrite P2. cbn [bind]. rewrite A2. cbn [bind]. rewrite Ep, Ea.
    assert (Ev : (d_init (m_spring m) ++ y0 ++ [p] ++ [a])%list = visible n (startx p a)).
    { unfold startx. rewrite Ey. symmetry. now apply visible_asm. }
    rewrite Ev. replace (cset_goal _ _) with c; [rewrite E2; reflexivity|].
    unfold cset_goal, img. cbn [cm_tau cm_y0 cm_attr cm_spring cm_phase cm_gating cm_scaling cm_amps cm_fas]. now rewrite Eg, Ey.
Qed.

(** *** the analytical solution *)
Variables G Gd P Pd A Ad D Dd C Cd : R -> list R.
Hypothesis Q : parts m G Gd P Pd A Ad D Dd C Cd.
Notation X := (d_init (m_spring m)).
Notation fl := (fol pf m P A false).
Notation fv := (fav pf m P false).
Notation rt := (rate pf m G P A C false).
Notation st := (states pf m G P A C false).

Lemma C_damps t : C t = dmps.
Proof.
  pose proof (pt_c _ _ _ _ _ _ _ _ _ _ _ Q) as H. assert (Hda : m_damping m = None) by apply Po. rewrite Hda in H. destruct H as [H _].
  destruct Po as (_ & _ & _ & _ & _ & _ & (d & Ed & _) & _).
  apply (nth_ext _ _ 0 0).
  - rewrite (C_len m G Gd P Pd A Ad D Dd C Cd Q). unfold damps. now rewrite repeat_length.
  - intros i Hi. rewrite (C_len m G Gd P Pd A Ad D Dd C Cd Q) in Hi. rewrite H by trivial. unfold damps. rewrite nth_repeat_lt by trivial. now rewrite Ed.
Qed.
Lemma tgt_G t : tgt m G t = G t.
Proof.
  unfold tgt, target. assert (Hr : m_req m = false) by apply Po. rewrite Hr. rewrite <- (pt_G _ _ _ _ _ _ _ _ _ _ _ Q t). symmetry. apply list_eq_map_nth.
Qed.
Lemma rt_eq t x : rt t x = accs m x (G t) dmps (fl t).
Proof. unfold rate. now rewrite tgt_G, C_damps. Qed.
Lemma img_spring : cm_spring c = new_cspring (m_tau m) (opt (m_y0 m) []) (scal (d_damp (m_spring m))).
Proof. reflexivity. Qed.
Lemma cspring_at_ok first t x : length x = (2 * n)%nat -> cspring_at c first (G t) x (fl t) = Ok (rt t x).
Proof.
  intros Hx. unfold cspring_at. rewrite (cdim_img kinds m Po). cbn [img cm_tau cm_y0 cm_spring new_cspring cd_damp].
  destruct (cspring_ok ex kinds m W Po x (G t) Hx (pt_G _ _ _ _ _ _ _ _ _ _ _ Q t)) as (xd & E1 & E2).
  change (Cspring (m_tau m) (opt (m_y0 m) []) (scal (d_damp (m_spring m))) (scal (d_damp (m_spring m)) * scal (d_damp (m_spring m)) / 4) 1)
    with (new_cspring (m_tau m) (opt (m_y0 m) []) (scal (d_damp (m_spring m)))).
  rewrite E1. cbn [bind]. rewrite E2 by apply (fol_length pf m P A false t). cbn [bind]. rewrite rt_eq. destruct first; [reflexivity|]. f_equal.
  unfold accs at 1. rewrite skipn_len by (now rewrite map_length, seq_length). unfold accs. f_equal.
  destruct (app_halves n x Hx) as (_ & _ & L2 & _ & N2). rewrite (map_seq_of _ _ n) by trivial. apply map_ext. intros i. now rewrite N2.
Qed.
Lemma cspring_loop_ok : forall ts t x, length x = (2 * n)%nat ->
  cspring_loop c t x (rt t x) (map (fun t => (t, G t, fl t)) ts) = Ok (map (fun p => (snd p, rt (fst p) (snd p))) (st t x ts)).
Proof.
  induction ts as [|t' ts IH]; intros t x Hx; cbn [map cspring_loop states]; [reflexivity|].
  rewrite (map2_seq _ x (rt t x) (2 * n)) by (trivial; apply rate_length). fold (next pf m G P A C false t t' x).
  rewrite cspring_at_ok by apply next_length. cbn [bind]. rewrite IH by apply next_length. reflexivity.
Qed.
Lemma cspring_rows_ok t ts :
  cspring_rows c (map (fun t => (t, G t, fl t)) (t :: ts)) = Ok (map (fun p => (snd p, rt (fst p) (snd p))) ((t, X) :: st t X ts)).
Proof.
  cbn [map cspring_rows].
  assert (EI : cspring_init (new_cspring (cm_tau c) (cm_y0 c) (cd_damp (cm_spring c))) = X).
  { destruct Po as (_ & _ & _ & (y0 & Ey & Ly & Ei & _) & _). unfold cspring_init. cbn [img cm_tau cm_y0 cm_spring new_cspring cd_y0 cd_damp].
    rewrite Ey. cbn [opt]. now rewrite Ly, Ei. }
  rewrite EI. assert (Hl : length X = (2 * n)%nat) by apply W. rewrite cspring_at_ok by exact Hl. cbn [bind].
  rewrite cspring_loop_ok by exact Hl. reflexivity.
Qed.
Lemma ana_same shape ts : 0 < m_tau m -> uniform m -> ts <> [] -> in_order ts -> shape <> (3 * n + 2, length ts)%nat ->
  exists r, ana pf m ts false = Ok r /\
    c_ana ex c shape ts = Ok (map (visible n) (a_xs r), map (visible n) (a_xds r), a_forcing r, a_fa r).
Proof.
  intros Ht (U1 & U2 & U3) Hne Ho Hsh. destruct ts as [|t ts]; [contradiction|].
  eexists. split; [exact (ana_eq pf m G Gd P Pd A Ad D Dd C Cd W Q false t ts)|]. cbn [a_xs a_xds a_forcing a_fa].
  pose proof Po as (Ha & Hreq & Hda & (y0 & Ey & Ly & Ei & tg & at0 & al & Eg & La) & Hdim & Htau & (d & Ed & Ek) & Em & Hp & Hga & _).
  assert (Hge : opt_ok n (m_goal m)) by apply W. assert (Hpo : sub_ok (m_phase m)) by apply W. assert (Hgo : sub_ok (m_gating m)) by apply W.
  rewrite Eg in Hge, U3. destruct Hge as [Hge _].
  set (T := t :: ts) in *. set (L := (t, X) :: st t X ts).
  assert (LT : map fst L = T) by (unfold L, T; cbn [map fst]; now rewrite states_times).
  unfold c_ana. rewrite (cdim_img kinds m Po).
  assert (Tr : (Nat.eqb (fst shape) (3 * n + 2) && Nat.eqb (snd shape) (length T))%bool = false).
  { destruct shape as [r k]. cbn [fst snd]. destruct (Nat.eqb_spec r (3 * n + 2)) as [->|]; [|reflexivity].
    destruct (Nat.eqb_spec k (length T)) as [->|]; [|reflexivity]. now contradiction Hsh. }
  rewrite Tr. change (Nat.eqb (length T) 0) with false. cbn [img cm_phase cm_gating deref bind].
  rewrite sub_same_ana by (trivial; now rewrite U1). rewrite (pt_EP _ _ _ _ _ _ _ _ _ _ _ Q). cbn [bind].
  rewrite sub_same_ana by (trivial; now rewrite U2). rewrite (pt_EA _ _ _ _ _ _ _ _ _ _ _ Q). cbn [bind].
  rewrite mapM_map. rewrite (mapM_pure _ (fun t => map (fv t) (seq 0 n))).
  2:{ intros u _. exact (cpredictions_ok ex kinds m W Po (nth 0 (P u) 0)). }
  cbn [bind]. rewrite combine_map, mapM_map. rewrite (mapM_pure _ fl).
  2:{ intros u _. cbn [fst snd]. rewrite map_map. exact (cscale_ok ex kinds m W (fun i => fv u i * nth 0 (A u) 0)). }
  cbn [bind]. pose proof (pt_EG _ _ _ _ _ _ _ _ _ _ _ Q T) as EG. rewrite Eg in EG.
  pose proof (sub_same_ana (SubE (Esys tg y0 at0 (PScal al))) T Hge) as EC. cbn [csub_ana csub_of] in EC.
  cbn [img cm_goal]. rewrite Eg. rewrite EC; [|split; [cbn; lia|now exists al]|rewrite U3; trivial|trivial]. rewrite EG. cbn [bind].
  rewrite <- (map_id T) at 1. rewrite zip3_map. unfold T at 1. rewrite cspring_rows_ok. fold L. cbn [bind].
  rewrite !map_map. cbn [fst snd]. rewrite <- LT, !map_map. rewrite !zip4_map.
  f_equal. f_equal. f_equal. f_equal.
  - apply map_ext_in. intros p Hp'. symmetry. unfold xrow.
    destruct (list1 _ (pt_P _ _ _ _ _ _ _ _ _ _ _ Q (fst p))) as [pp ->]. destruct (list1 _ (pt_A _ _ _ _ _ _ _ _ _ _ _ Q (fst p))) as [aa ->].
    apply visible_asm. repeat split; [|apply Q|apply (C_len m G Gd P Pd A Ad D Dd C Cd Q)].
    destruct (In_nth _ _ (0, []) Hp') as (k & Hk & <-). unfold L in Hk. apply (L_len pf m G P A C W false t ts k).
    pose proof (L_length pf m G P A C false t ts) as E. rewrite <- E. exact Hk.
  - apply map_ext_in. intros p Hp'. symmetry. unfold xdrow.
    destruct (list1 _ (pt_Pd _ _ _ _ _ _ _ _ _ _ _ Q (fst p))) as [pp ->]. destruct (list1 _ (pt_Ad _ _ _ _ _ _ _ _ _ _ _ Q (fst p))) as [aa ->].
    apply visible_asm. repeat split; [apply rate_length|apply Q|apply (Cd_len m G Gd P Pd A Ad D Dd C Cd Q)].
Qed.
End Same.
