(** Proofs about exploration: from a demonstration to the robot. *)
From Coq Require Import String.
From Verif Require Import Base BaseLemmas SessionModel DynModel DynSpec ParamModel ParamSpec ParamProofs FaModel TrajModel DmpModel DmpSpec DmpProofs8 CppModel CppSpec CppProofs2 CppProofs5 CppProofs7 CppProofs8
  ExploreSpec ExploreModel ExploreProofs ExploreProofs2.
Open Scope string_scope.
Open Scope R_scope.

Lemma get_size p v : selectable_dmp p -> dmp_get p = Ok v -> dmp_size p = Ok (length v).
Proof.
  intros [F L] E. unfold dmp_get, dmp_size in *. destruct (fas_get_size _ F) as (w & Gw & Sw). rewrite Gw in E. rewrite Sw. cbn [bind] in *.
  injection E as <-. rewrite app_length. f_equal. f_equal. destruct (mem "goal" (p_sel p)); [now rewrite L|reflexivity].
Qed.
Lemma get_ok p : selectable_dmp p -> exists v, dmp_get p = Ok v.
Proof. intros [F L]. unfold dmp_get. destruct (fas_get_size _ F) as (w & Gw & Sw). rewrite Gw. cbn [bind]. eauto. Qed.
Lemma good_goal ex kinds n m : good ex kinds n m -> match m_goal m with Some (SubE e) => length (e_init e) = m_dim m | _ => True end.
Proof. intros (_ & (_ & _ & _ & (y0 & _ & Ly & _ & t & a & al & -> & _) & _) & _). exact Ly. Qed.

Lemma samples_ok ex kinds n m samples v0 : good ex kinds n m -> selectable_dmp (pdmp_of m) -> explorable m -> m_get_params m = Ok v0 ->
  Forall (fun v => length v = length v0) samples ->
  exists files, tune kinds m 0 samples = Ok files /\ length files = length samples /\
    forall i, (i < length samples)%nat -> exists m' j c, m_set_params m (nth i samples []) = (m', Ok tt) /\ m_get_params m' = Ok (nth i samples []) /\
      lookup files (sample_name i) = Some j /\ load_dmp j = Ok c /\ c = img kinds m' /\ good ex kinds n m'.
Proof.
  intros G S E G0 Hs. pose proof (get_size _ _ S G0) as Hz.
  assert (Hs' : Forall (fun v => dmp_size (pdmp_of m) = Ok (length v)) samples) by (revert Hs; apply Forall_impl; intros v ->; exact Hz).
  destruct (tune_ok kinds m S (good_goal _ _ _ _ G) samples m 0 (or_introl eq_refl) Hs') as (files & Et & L & F).
  exists files. split; [exact Et|]. split; [exact L|]. intros i Hi. destruct (F i Hi) as (m' & Em & Nf). exists m', (dmp_json kinds m'), (img kinds m').
  split; [exact Em|]. rewrite Forall_forall in Hs'. specialize (Hs' (nth i samples []) (nth_In _ _ Hi)).
  destruct (explore_good ex kinds n m _ G S E Hs') as (m2 & Em2 & Gm2 & GG & _). rewrite Em in Em2. injection Em2 as <-.
  split; [exact Gm2|]. split; [|split; [apply transfer_ok, GG|split; [reflexivity|exact GG]]].
  apply (files_lookup sample_name sample_name_inj files 0); [|exact Nf].
  intros k Hk. destruct (F k) as (m3 & _ & N3); [congruence|]. now exists (dmp_json kinds m3).
Qed.

Lemma step1_ok kinds ns h lam t fas : (forall i, kinds i = KRbfn) -> (forall i, (0 < ns i)%nat) -> (forall i, 0 < h i < 1) -> (forall i, 0 < lam i) ->
  demo (tj_dim t) t -> 0 < last (tj_ts t) 0 -> hd 0 (tj_ts t) < last (tj_ts t) 0 ->
  (tj_dim t <= length fas)%nat -> Forall (fun f => is_trained f = false) fas ->
  exists m, step1 (py_predict exp kinds) (trainer kinds ns h lam) t fas = Ok m /\ good exp kinds (tj_dim t) m /\ selectable_dmp (pdmp_of m) /\ explorable m.
Proof.
  intros Hk Hn Hh Hl D L1 L2 Lf Hu.
  assert (P : plain_kw no_kw) by (do 5 (split; [reflexivity|]); now exists 20).
  assert (Hk' : forall i, kinds i <> KOther) by (intros i; rewrite Hk; discriminate).
  destruct (from_traj_ok kinds ns h lam Hk' Hn Hh Hl Kulvicius t fas no_kw (or_introl eq_refl) P eq_refl D L1 L2 Lf Hu) as [m E].
  assert (G : good exp kinds (tj_dim t) m).
  { apply (trained_good kinds ns h lam Hn Hh) with (ty := Kulvicius) (fas := fas) (kw := no_kw); trivial; [intros; now apply Rlt_le|now left]. }
  exists (m_select m (NStr "weights")). unfold step1. rewrite E. split; [reflexivity|].
  apply select_good; trivial.
  - intros fs i f. now apply (from_traj_extras _ _ _ _ _ _ _ E Hu).
  - repeat constructor. intros [].
  - intros i x _ [<-|[]]. right. rewrite Hk. now left.
Qed.
