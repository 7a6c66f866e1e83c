(** Proofs about the C++ counterpart: the differential equation. *)
From Coq Require Import String.
From Verif Require Import Base BaseLemmas DynModel DynSpec DynProofs ParamModel FaModel TrajModel DmpModel DmpSpec DmpProofs DmpProofs2 DmpProofs3 DmpProofs5 DmpProofs14 CppModel CppSpec CppProofs CppProofs2.
Open Scope string_scope.
Open Scope R_scope.

Lemma list1 {A} (l : list A) : length l = 1%nat -> exists a, l = [a].
Proof. destruct l as [|a [|b l]]; cbn; intros; try lia. now exists a. Qed.
(** the parts of a state *)
Lemma split_state n (x : list R) : length x = (4 * n + 2)%nat ->
  exists sp g p a c, x = asm sp g [p] [a] c /\ same_layout n sp g [p] [a] c.
Proof.
  intros H.
  assert (L1 : length (firstn (2 * n) x) = (2 * n)%nat) by (rewrite firstn_length; lia).
  set (x1 := skipn (2 * n) x). assert (H1 : length x1 = (2 * n + 2)%nat) by (unfold x1; rewrite skipn_length; lia).
  set (x2 := skipn n x1). assert (H2 : length x2 = (n + 2)%nat) by (unfold x2; rewrite skipn_length; lia).
  destruct x2 as [|p [|a c]] eqn:E2; cbn in H2; try lia.
  exists (firstn (2 * n) x), (firstn n x1), p, a, c. split.
  - unfold asm. rewrite <- (firstn_skipn (2 * n) x) at 1. f_equal. fold x1. rewrite <- (firstn_skipn n x1) at 1. f_equal. exact E2.
  - repeat split; trivial; [rewrite firstn_length; lia|lia].
Qed.
Lemma visible_asm n sp g p a c : same_layout n sp g [p] [a] c -> visible n (asm sp g [p] [a] c) = (sp ++ g ++ [p] ++ [a])%list.
Proof.
  intros (A & B & _ & _ & _). unfold visible, asm. rewrite !app_assoc. apply firstn_len. rewrite !app_length. cbn. lia.
Qed.
Lemma visible_parts n sp g p a : length sp = (2 * n)%nat -> length g = n ->
  let v := (sp ++ g ++ [p] ++ [a])%list in
  length v = (3 * n + 2)%nat /\ firstn (2 * n) v = sp /\ firstn n (skipn (2 * n) v) = g /\ nth (3 * n) v 0 = p /\ nth (3 * n + 1) v 0 = a.
Proof.
  intros A B v. unfold v. repeat split.
  - rewrite !app_length. cbn. lia.
  - now apply firstn_len.
  - rewrite skipn_len by trivial. now apply firstn_len.
  - rewrite app_nth2 by lia. rewrite app_nth2 by lia. replace (3 * n - length sp - length g)%nat with 0%nat by lia. reflexivity.
  - rewrite app_nth2 by lia. rewrite app_nth2 by lia. replace (3 * n + 1 - length sp - length g)%nat with 1%nat by lia. reflexivity.
Qed.

Section Same.
Variable ex : R -> R.
Variable kinds : nat -> fa_kind.
Notation pf := (py_predict ex kinds).
Variable m : dmp.
Hypothesis W : wf pf m.
Hypothesis Po : portable kinds m.
Notation n := (m_dim m).
Notation c := (img kinds m).

Lemma cdim_img : cdim c = n.
Proof. destruct Po as (_ & _ & _ & (y0 & Ey & Ly & _) & _). unfold cdim, img. cbn [cm_y0]. now rewrite Ey. Qed.
Lemma cpredictions_ok ph : cpredictions ex c ph = Ok (map (pred_val pf m ph) (seq 0 n)).
Proof.
  destruct Po as (_ & _ & _ & _ & _ & _ & _ & _ & _ & _ & _ & fs & Ef & Lf & Hf).
  destruct W as (_ & _ & _ & _ & _ & _ & _ & _ & _ & _ & _ & _ & _ & _ & _ & _ & _ & _ & Hok). unfold fas_ok in Hok. rewrite Ef in Hok.
  destruct Hok as [_ Hok].
  unfold cpredictions. rewrite cdim_img. apply mapM_pure. intros i Hi. apply in_seq in Hi.
  cbn [img cm_fas]. rewrite nth_error_map.
  rewrite (nth_error_nth' (seq 0 n) 0%nat) by (rewrite seq_length; lia). rewrite seq_nth by lia. cbn [option_map deref bind Nat.add].
  unfold fas_of, pdmp_of, pred_val. cbn [p_fas]. unfold fas_of, pdmp_of. cbn [p_fas]. rewrite Ef.
  assert (En : nth_error fs i = Some (nth i fs (new_fa []))) by (apply nth_error_nth'; lia). rewrite En.
  pose proof (Hf _ _ En ltac:(lia)) as F. destruct (fa_same ex kinds i _ F) as (cf & L & P). unfold cfa_of. rewrite L. cbn [deref bind].
  rewrite P. destruct F as [T _]. rewrite T. destruct (Hok _ _ En T ph) as [v E]. now rewrite E.
Qed.
Lemma cscale_ok (F : nat -> R) : cscale c (map F (seq 0 n)) = Ok (map (fun i => F i * factor m i) (seq 0 n)).
Proof.
  destruct W as (_ & Ha & Hy & Hr & Ham & _). unfold cscale, factor. cbn [img cm_scaling cm_attr cm_y0 cm_amps].
  destruct (m_scaling m) eqn:E; cbn [scaling_name String.eqb Ascii.eqb Bool.eqb].
  - f_equal. apply map_ext. intros. ring.
  - destruct (m_y0 m) as [y|] eqn:Ey; [|exfalso; apply Hr; auto]. specialize (Hy y eq_refl). cbn [opt].
    rewrite ceq_ok by lia. cbn [bind]. rewrite (map2_seq _ _ _ n) by trivial. rewrite ceq_ok by (rewrite !map_length; reflexivity).
    f_equal. now rewrite map2_map.
  - destruct (Ham eq_refl) as (a & Ea & La). rewrite Ea. cbn [opt]. rewrite ceq_ok by (rewrite map_length, seq_length; lia).
    f_equal. rewrite (map2_seq _ _ _ n) by (trivial; now rewrite map_length, seq_length). apply map_ext_in. intros i Hi. apply in_seq in Hi.
    now rewrite nth_map_seq by lia.
Qed.
(** the spring system with forcing terms *)
Definition damps : list R := repeat (scal (d_damp (m_spring m))) n.
Lemma cspring_ok x g : length x = (2 * n)%nat -> length g = n ->
  exists xd, cspring_diffeq (new_cspring (m_tau m) (opt (m_y0 m) []) (scal (d_damp (m_spring m)))) g x = Ok xd /\
  forall f, length f = n -> cadd_forcing (m_tau m) n f xd = Ok (accs m x g damps f).
Proof.
  intros Hx Hg. destruct Po as (_ & _ & _ & (y0 & Ey & Ly & _) & _ & _ & (d & Ed & Ek) & Em & _).
  destruct W as (Ht & _). rewrite Ey, Ed. cbn [opt scal].
  destruct (app_halves n x Hx) as (Ex & L1 & L2 & N1 & N2).
  eexists. split.
  - unfold cspring_diffeq. cbn [new_cspring cd_y0 cd_tau cd_mass cd_k cd_damp]. rewrite Ly, Hx, Hg, !Nat.eqb_refl. cbn [andb negb].
    destruct (Req_EM_T (1 * m_tau m) 0) as [Z|_]; [exfalso; apply Ht; rewrite <- Z; ring|]. destruct (Req_EM_T (m_tau m) 0) as [?|_]; [contradiction|]. reflexivity.
  - intros f Hf. unfold cadd_forcing. destruct (Req_EM_T (m_tau m) 0) as [?|_]; [contradiction|].
    rewrite firstn_len, skipn_len by now rewrite map_length.
    rewrite ceq_ok by (rewrite !map2_length, L1, L2, Hg, Hf; lia). cbn [bind]. f_equal. unfold accs. f_equal.
    + rewrite (map_seq_of _ _ n) by trivial. apply map_ext. intros i. now rewrite N2.
    + rewrite (map2_seq _ _ f n) by (trivial; rewrite !map2_length, L1, L2, Hg; lia).
      apply map_ext_in. intros i Hi. apply in_seq in Hi.
      rewrite (map2_seq _ (map2 Rminus (firstn n x) g) (skipn n x) n) by (trivial; rewrite map2_length, L1, Hg; lia).
      rewrite nth_map_seq by lia. rewrite (map2_seq Rminus (firstn n x) g n) by trivial. rewrite nth_map_seq by lia.
      unfold accel, damps. rewrite N1, N2 by lia. rewrite nth_repeat_lt by lia. rewrite Ed, Ek, Em. cbn [par_val scal]. reflexivity.
Qed.

(** the DMP after differential_equation *)
Definition m_next (g : list R) : dmp :=
  let sp := m_spring m in
  upd_spring m (Dsys (d_tau sp) (d_init sp) g (d_damp sp) (d_spring sp) (d_mass sp) (d_dimy sp))
    (match m_goal m with Some (SubE e) => Some (SubE (Esys (e_tau e) (e_init e) (m_attr m) (e_alpha e))) | o => o end).
Definition rates (sp g gd pd ad : list R) (p a : R) : list R :=
  asm (accs m sp g damps (map (fun i => pred_val pf m p i * a * factor m i) (seq 0 n))) gd pd ad (repeat 0 n).
Lemma diffeq_both sp g p a c0 : same_layout n sp g [p] [a] c0 ->
  exists gd pd ad, length gd = n /\ length pd = 1%nat /\ length ad = 1%nat /\
    m_diffeq pf m (asm sp g [p] [a] c0) = Ok (m_next g, rates sp g gd pd ad p a) /\
    c_diffeq ex c (sp ++ g ++ [p] ++ [a])%list =
      Ok (img kinds (m_next g), accs m sp g damps (map (fun i => pred_val pf m p i * a * factor m i) (seq 0 n)) ++ gd ++ pd ++ ad)%list.
Proof.
  intros LX. destruct Po as (Ha & Hreq & Hda & (y0 & Ey & Ly & Ei & t & at0 & al & Eg & La) & Hdim & Htau & (d & Ed & Ek) & Em & Hp & Hga & _).
  assert (Hge : opt_ok n (m_goal m)) by apply W. assert (Hpo : sub_ok (m_phase m)) by apply W. assert (Hpd : sub_dim (m_phase m) = 1%nat) by apply W.
  assert (Hgo : sub_ok (m_gating m)) by apply W. assert (Hgd : sub_dim (m_gating m) = 1%nat) by apply W.
  rewrite Eg in Hge. destruct Hge as [[Hte _] _]. cbn [sub_tau e_tau] in Hte.
  pose proof LX as (S1 & S2 & _ & _ & S5).
  set (e1 := Esys t y0 (m_attr m) (PScal al)).
  destruct (exp_same_rate e1 al g) as (gd & G1 & G2 & G3); [exact Hte|reflexivity|cbn; lia|].
  destruct (sub_same_rate (m_phase m) [p]) as (pd & P1 & P2 & P3); [trivial..|cbn; lia|].
  destruct (sub_same_rate (m_gating m) [a]) as (ad & A1 & A2 & A3); [trivial..|cbn; lia|].
  exists gd, pd, ad. split; [lia|]. split; [lia|]. split; [lia|].
  set (f := map (fun i => pred_val pf m p i * a * factor m i) (seq 0 n)).
  assert (Lf : length f = n) by (unfold f; now rewrite map_length, seq_length).
  split.
  - pose proof (goal_dim pf m W) as GD. unfold m_diffeq. cbv zeta. rewrite Eg, Hda. cbn [sub_set_attr e_init e_tau e_alpha].
    rewrite Ha, Ly, Nat.eqb_refl. cbn [bind]. rewrite (get_goal m GD) by exact LX. cbn [bind sub_diffeq]. fold e1. rewrite G1. cbn [bind].
    unfold scale_goal. rewrite Hreq. cbn [bind]. rewrite (spring_attr pf m W) by exact S2. cbn [bind].
    rewrite (asm_length m GD _ _ _ _ _ LX), (asm_zero m GD).
    pose proof (zeros_layout m) as (Z1 & Z2 & Z3 & Z4 & Z5).
    rewrite (put_goal m GD gd gd) by (repeat split; trivial; apply fit_same; lia). cbn [bind].
    rewrite (put_damping m GD (repeat 0 n) (repeat 0 n)) by (try (repeat split; trivial; lia); apply fit_same, repeat_length).
    cbn [bind]. rewrite (get_spring m) by exact LX. cbn [bind].
    destruct (spring_diffeq pf m W _ sp g (d_damp (m_spring m)) damps (spring_attr pf m W g S2)) as (xd & Ed1 & Ef); trivial.
    { rewrite Ed. exact I. }
    { intros i Hi. unfold damps. rewrite nth_repeat_lt by trivial. rewrite Ed. reflexivity. }
    unfold d_set_damp in Ed1. cbn [d_tau d_init d_attr d_damp d_spring d_mass d_dimy] in Ed1. rewrite Ed1. cbn [bind].
    rewrite (get_phase m GD) by exact LX. cbn [bind]. rewrite P1. cbn [bind].
    rewrite (put_phase m GD pd pd) by (try (repeat split; trivial; lia); apply fit_same; lia). cbn [bind].
    rewrite (get_gating m GD) by exact LX. cbn [bind]. rewrite A1. cbn [bind].
    rewrite (put_gating m GD ad ad) by (try (repeat split; trivial; lia); apply fit_same; lia). cbn [bind one].
    rewrite (predictions_ok pf m W). cbn [bind]. rewrite (factors_ok pf m W). cbn [bind].
    assert (EF : forcing (map (factor m) (seq 0 n)) (map (pred_val pf m p) (seq 0 n)) a = f) by (unfold forcing; now rewrite map2_map).
    rewrite EF, Ef by exact Lf. cbn [bind].
    rewrite (put_spring m _ (accs m sp g damps f)).
    2:{ repeat split; trivial; lia. }
    2:{ apply fit_same, accs_length. }
    cbn [bind]. unfold m_next, rates. rewrite Eg. reflexivity.
  - destruct (visible_parts n sp g p a S1 S2) as (V0 & V1 & V2 & V3 & V4). set (v := (sp ++ g ++ [p] ++ [a])%list) in *.
    unfold c_diffeq. rewrite cdim_img, V0, Nat.eqb_refl, V1, V2, V3, V4. cbn [negb].
    cbn [img cm_goal cm_attr cm_spring cm_phase cm_gating cm_tau]. rewrite Eg. unfold exp_set_attr. cbn [cexp_of e_tau e_init e_attr e_alpha scal ce_init ce_tau ce_attr ce_alpha].
    rewrite Ha, Ly, Nat.eqb_refl. cbn [bind]. change (Cexp t y0 (m_attr m) al) with (cexp_of e1). rewrite G2. cbn [bind].
    destruct (cspring_ok sp g S1 S2) as (xd & E1 & E2). rewrite E1. cbn [bind deref]. rewrite P2. cbn [bind]. rewrite A2. cbn [bind].
    rewrite cpredictions_ok. cbn [bind]. rewrite map_map.
    rewrite (cscale_ok (fun i => a * pred_val pf m p i)). cbn [bind].
    assert (EF : map (fun i => a * pred_val pf m p i * factor m i) (seq 0 n) = f) by (apply map_ext; intros; ring).
    rewrite EF, E2 by exact Lf. cbn [bind]. f_equal. f_equal.
    unfold m_next, img, cset_goal. cbn [upd_spring m_y0 m_tau m_attr m_spring d_damp m_goal m_phase m_gating m_scaling m_amps m_dim cm_tau cm_y0 cm_attr cm_spring cm_phase cm_gating cm_scaling cm_amps cm_fas].
    rewrite Eg. reflexivity.
Qed.
Lemma diffeq_same x : length x = dim_x m ->
  exists g xd, m_diffeq pf m x = Ok (m_next g, xd) /\ length g = n /\ length xd = dim_x m /\ skipn (3 * n + 2) xd = repeat 0 n /\
    c_diffeq ex c (visible n x) = Ok (img kinds (m_next g), visible n xd).
Proof.
  intros Hx. destruct (split_state n x) as (sp & g & p & a & c0 & -> & LX); [unfold dim_x in Hx; lia|].
  destruct (diffeq_both sp g p a c0 LX) as (gd & pd & ad & L1 & L2 & L3 & E1 & E2).
  destruct (list1 _ L2) as [pd0 ->]. destruct (list1 _ L3) as [ad0 ->].
  pose proof LX as (S1 & S2 & _ & _ & S5).
  set (f := map (fun i => pred_val pf m p i * a * factor m i) (seq 0 n)) in *.
  assert (LD : same_layout n (accs m sp g damps f) gd [pd0] [ad0] (repeat 0 n)) by (repeat split; trivial; [apply accs_length|apply repeat_length]).
  exists g, (rates sp g gd [pd0] [ad0] p a). split; [exact E1|]. split; [trivial|]. split.
  { apply (asm_length m); [apply (goal_dim pf m W)|exact LD]. }
  split.
  { unfold rates, asm. rewrite !app_assoc. apply skipn_len. rewrite !app_length, accs_length. cbn. lia. }
  rewrite visible_asm by exact LX. unfold rates. fold f. rewrite visible_asm by exact LD. exact E2.
Qed.
Lemma next_portable g : length g = n -> portable kinds (m_next g).
Proof.
  intros Hg. destruct Po as (Ha & Hreq & Hda & (y0 & Ey & Ly & Ei & t & at0 & al & Eg & La) & Q).
  unfold portable, m_next. cbn [upd_spring m_y0 m_tau m_attr m_spring d_damp m_goal m_phase m_gating m_scaling m_amps m_dim m_req m_damping m_fas d_init d_dimy d_tau d_spring d_mass].
  rewrite Eg. split; [trivial|]. split; [trivial|]. split; [trivial|]. split; [|exact Q].
  exists y0. split; [trivial|]. split; [trivial|]. split; [trivial|]. exists t, (m_attr m), al. split; [reflexivity|trivial].
Qed.
End Same.

Lemma diffeq_wf pf m x m' xd : wf pf m -> m_diffeq pf m x = Ok (m', xd) -> wf pf m'.
Proof.
  intros W E. destruct (touched_sound pf m m' (wf_sound pf m W) (diffeq_touch pf m m' x xd E)) as (S & _ & Q & _).
  apply sound_wf; [exact S|apply Q, (wf_ready pf), W].
Qed.
