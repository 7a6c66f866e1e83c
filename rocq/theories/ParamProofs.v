From Coq Require Import String.
From Verif Require Import Base BaseLemmas ParamModel ParamSpec.
Open Scope string_scope.

(** ** dictionaries *)
Lemma lookup_assign_eq {V} (d : list (string * V)) k v : lookup (assign d k v) k = Some v.
Proof.
  induction d as [|[k' v'] d IH]; cbn; [now rewrite String.eqb_refl|].
  destruct (String.eqb k k') eqn:E; cbn; rewrite E; auto.
Qed.
Lemma lookup_assign_neq {V} (d : list (string * V)) k v n : n <> k -> lookup (assign d k v) n = lookup d n.
Proof.
  intros H. apply String.eqb_neq in H. induction d as [|[k' v'] d IH]; cbn; [now rewrite H|].
  destruct (String.eqb k k') eqn:E; cbn.
  - apply String.eqb_eq in E. subst k'. now rewrite H.
  - destruct (String.eqb n k'); auto.
Qed.
Lemma assign_same {V} (d : list (string * V)) k v : lookup d k = Some v -> assign d k v = d.
Proof.
  induction d as [|[k' v'] d IH]; cbn; [discriminate|]. destruct (String.eqb k k'); [congruence|].
  intros H. f_equal. auto.
Qed.
Lemma assign_keys {V} (d : list (string * V)) k v w : lookup d k = Some w -> map fst (assign d k v) = map fst d.
Proof.
  induction d as [|[k' v'] d IH]; cbn; [discriminate|]. destruct (String.eqb k k'); cbn; [reflexivity|].
  intros H. f_equal. auto.
Qed.

(** ** one function approximator *)
Definition arrs (m : list (string * pval)) (sel : list string) : Prop :=
  Forall (fun n => exists a, lookup m n = Some (PArr a) /\ proper_array a) sel.
Lemma arrs_assign m l s vs sel : lookup m l <> None -> s <> [] -> length vs = prod s ->
  arrs m sel -> arrs (assign m l (PArr (Arr s vs))) sel.
Proof.
  intros _ Hs Hv H. apply Forall_forall. intros n Hn. unfold arrs in H. rewrite Forall_forall in H.
  destruct (String.eqb n l) eqn:E.
  - apply String.eqb_eq in E. subst. exists (Arr s vs). rewrite lookup_assign_eq. repeat split; auto.
  - apply String.eqb_neq in E. rewrite lookup_assign_neq by exact E. auto.
Qed.
Lemma sizes_assign m l s vs vs' sel : lookup m l = Some (PArr (Arr s vs)) -> sizes (assign m l (PArr (Arr s vs'))) sel = sizes m sel.
Proof.
  intros H. induction sel as [|n sel IH]; [reflexivity|]. cbn [sizes]. rewrite IH.
  destruct (String.eqb n l) eqn:E.
  - apply String.eqb_eq in E. subst. now rewrite lookup_assign_eq, H.
  - apply String.eqb_neq in E. now rewrite lookup_assign_neq.
Qed.
Lemma sizes_ok m sel : arrs m sel -> exists n, sizes m sel = Ok n.
Proof.
  induction 1 as [|l sel (a & E & W) H IH]; [now exists 0%nat|]. destruct IH as [n IH]. cbn [sizes]. rewrite E, IH. cbn. eauto.
Qed.
Lemma get_assign_other m l v sel : ~ In l sel -> get_values (assign m l v) sel = get_values m sel.
Proof.
  induction sel as [|n sel IH]; [reflexivity|]. cbn [get_values In]. intros H.
  rewrite lookup_assign_neq by (intros ->; apply H; now left). rewrite IH by tauto. reflexivity.
Qed.
Lemma set_frame sel : forall m vs m' r, set_values m sel vs = (m', r) -> forall n, ~ In n sel -> lookup m' n = lookup m n.
Proof.
  induction sel as [|l sel IH]; intros m vs m' r H n Hn; cbn [set_values] in H; [now injection H as <- _|].
  assert (Hl : n <> l /\ ~ In n sel) by (cbn in Hn; split; [intros ->; apply Hn; now left|tauto]).
  destruct (lookup m l) as [[|[[|s0 s] d]|r0]|] eqn:E; try (now injection H as <- _).
  cbv zeta in H. destruct (Nat.eqb _ _); [|now injection H as <- _].
  rewrite (IH _ _ _ _ H n) by tauto. now apply lookup_assign_neq.
Qed.
Lemma set_shapes sel : forall m vs m' r, set_values m sel vs = (m', r) ->
  map fst m' = map fst m /\
  forall n, match lookup m n with
            | Some (PArr a) => exists a', lookup m' n = Some (PArr a') /\ ashape a' = ashape a
            | x => lookup m' n = x
            end.
Proof.
  induction sel as [|l sel IH]; intros m vs m' r H; cbn [set_values] in H.
  { injection H as <- _. split; [reflexivity|]. intros n. destruct (lookup m n) as [[|a|]|]; eauto. }
  assert (T : map fst m = map fst m /\ forall n, match lookup m n with
     | Some (PArr a) => exists a', lookup m n = Some (PArr a') /\ ashape a' = ashape a | x => lookup m n = x end).
  { split; [reflexivity|]. intros n. destruct (lookup m n) as [[|a|]|]; eauto. }
  destruct (lookup m l) as [[|[[|s0 s] d]|r0]|] eqn:E; try (now injection H as <- _).
  cbv zeta in H. destruct (Nat.eqb _ _); [|now injection H as <- _].
  destruct (IH _ _ _ _ H) as [K S]. split; [rewrite K; eapply assign_keys; eauto|].
  intros n. specialize (S n). destruct (String.eqb n l) eqn:En.
  - apply String.eqb_eq in En. subst n. rewrite E. rewrite lookup_assign_eq in S. exact S.
  - apply String.eqb_neq in En. rewrite lookup_assign_neq in S by exact En. exact S.
Qed.
Lemma set_values_ok sel : forall m vs, NoDup sel -> arrs m sel -> sizes m sel = Ok (length vs) ->
  exists m', set_values m sel vs = (m', Ok tt) /\ get_values m' sel = Ok vs /\ arrs m' sel.
Proof.
  induction sel as [|l sel IH]; intros m vs Hd Ha Hs.
  { cbn in *. injection Hs as Hs. destruct vs; [|discriminate]. exists m. auto. }
  inversion Hd as [|? ? Hl Hd']. inversion Ha as [|? ? (a & E & Sh & W) Ha']. subst.
  cbn [sizes set_values] in *. rewrite E in Hs |- *. destruct a as [s d]. cbn [ashape adata] in *.
  destruct (sizes m sel) as [k|] eqn:Ek; [|discriminate]. cbn in Hs. injection Hs as Hs.
  destruct s as [|s0 s]; [congruence|]. cbv zeta. set (sh := s0 :: s) in *.
  assert (Hlen : length (firstn (prod sh) vs) = prod sh) by (rewrite firstn_length; lia).
  rewrite Hlen, Nat.eqb_refl.
  destruct (IH (assign m l (PArr (Arr sh (firstn (prod sh) vs)))) (skipn (prod sh) vs) Hd') as (m' & S' & G' & A').
  - apply arrs_assign; auto. congruence.
  - rewrite (sizes_assign m l sh d) by exact E. rewrite Ek. f_equal. rewrite skipn_length. lia.
  - exists m'. split; [exact S'|].
    assert (L : lookup m' l = Some (PArr (Arr sh (firstn (prod sh) vs)))).
    { rewrite (set_frame _ _ _ _ _ S' l Hl). apply lookup_assign_eq. }
    split.
    + cbn [get_values]. rewrite L, G'. cbn. now rewrite firstn_skipn.
    + constructor; [|exact A']. exists (Arr sh (firstn (prod sh) vs)). repeat split; auto.
Qed.
Lemma get_values_ok sel : forall m, arrs m sel -> exists vs, get_values m sel = Ok vs /\ sizes m sel = Ok (length vs).
Proof.
  induction sel as [|l sel IH]; intros m Ha; [exists []; auto|].
  inversion Ha as [|? ? (a & E & Sh & W) Ha']. subst. destruct (IH m Ha') as (vs & G & S).
  exists (adata a ++ vs)%list. cbn [get_values sizes]. rewrite E, G, S. cbn. rewrite app_length, W. auto.
Qed.
Lemma set_get_values sel : forall m vs, NoDup sel -> arrs m sel -> get_values m sel = Ok vs -> set_values m sel vs = (m, Ok tt).
Proof.
  induction sel as [|l sel IH]; intros m vs Hd Ha G; [reflexivity|].
  inversion Hd as [|? ? Hl Hd']. inversion Ha as [|? ? (a & E & Sh & W) Ha']. subst.
  cbn [get_values set_values] in *. rewrite E in G |- *. destruct a as [s d]. cbn [ashape adata] in *.
  destruct (get_values m sel) as [ws|] eqn:Eg; [|discriminate]. cbn in G. injection G as <-.
  destruct s as [|s0 s]; [congruence|]. cbv zeta. set (sh := s0 :: s) in *.
  assert (F : firstn (prod sh) (d ++ ws)%list = d) by (rewrite <- W, firstn_app, Nat.sub_diag, firstn_all; apply app_nil_r).
  assert (K : skipn (prod sh) (d ++ ws)%list = ws) by (rewrite <- W, skipn_app, Nat.sub_diag, skipn_all; reflexivity).
  rewrite F, K, W, Nat.eqb_refl, assign_same by exact E. auto.
Qed.

Lemma selectable_inv f : selectable f -> exists sel, f_sel f = Some sel /\ is_trained f = true /\ NoDup sel /\ arrs (f_model f) sel.
Proof. intros (T & sel & S & N & F). eauto. Qed.
Lemma fa_get_size f : selectable f -> exists v, fa_get f = Ok v /\ fa_size f = Ok (length v).
Proof.
  intros H. destruct (selectable_inv f H) as (sel & S & T & N & A). unfold fa_get, fa_size. rewrite S, T. now apply get_values_ok.
Qed.
Lemma fa_set_ok f v : selectable f -> fa_size f = Ok (length v) ->
  exists f', fa_set f v = (f', Ok tt) /\ fa_get f' = Ok v /\ fa_size f' = Ok (length v) /\ selectable f'.
Proof.
  intros H Hs. destruct (selectable_inv f H) as (sel & S & T & N & A). unfold fa_set. rewrite T, Hs, Nat.eqb_refl, S.
  unfold fa_size in Hs. rewrite S in Hs. destruct (set_values_ok sel (f_model f) v N A Hs) as (m' & E & G & A').
  rewrite E. eexists. split; [reflexivity|]. assert (T' : is_trained (Fa m' (f_dim f) (Some sel)) = true) by (unfold is_trained in *; exact T).
  unfold fa_get, fa_size. cbn [f_sel f_model]. rewrite T'. split; [exact G|].
  destruct (get_values_ok sel m' A') as (vs & G2 & S2). assert (vs = v) by congruence. subst vs. split; [exact S2|].
  split; [exact T'|]. exists sel. auto.
Qed.
Lemma fa_set_get f v : selectable f -> fa_get f = Ok v -> fa_set f v = (f, Ok tt).
Proof.
  intros H G. destruct (fa_get_size f H) as (w & G' & Sz). assert (w = v) by congruence. subst w.
  destruct (selectable_inv f H) as (sel & S & T & N & A). unfold fa_set. rewrite T, Sz, Nat.eqb_refl, S.
  unfold fa_get in G. rewrite S, T in G. rewrite (set_get_values sel _ v N A G). destruct f; cbn in *. now subst.
Qed.
Lemma same_but_refl sel f : same_but sel f f.
Proof. repeat split; auto. intros n. destruct (lookup (f_model f) n) as [[|a|]|]; eauto. Qed.
Lemma fa_set_same f v f' r : fa_set f v = (f', r) -> same_but (fa_selection f) f f'.
Proof.
  intros H. unfold fa_set in H. unfold fa_selection.
  destruct (is_trained f); [|injection H as <- _; apply same_but_refl].
  destruct (fa_size f); [|injection H as <- _; apply same_but_refl].
  destruct (Nat.eqb _ _); [|injection H as <- _; apply same_but_refl].
  destruct (f_sel f) as [sel|] eqn:S; [|injection H as <- _; apply same_but_refl].
  destruct (set_values (f_model f) sel v) as [m r'] eqn:E. injection H as <- _.
  destruct (set_shapes _ _ _ _ _ E) as [K Sh]. split; [reflexivity|]. split; [exact (eq_sym S)|]. split; [exact K|].
  split; [intros n; apply (set_frame _ _ _ _ _ E)|exact Sh].
Qed.
Lemma fa_set_wrong f v : (is_trained f = false \/ exists n, fa_size f = Ok n /\ length v <> n) -> fa_set f v = (f, Err ValueError).
Proof.
  unfold fa_set. intros [->|(n & -> & H)]; [reflexivity|]. destruct (is_trained f); [|reflexivity].
  apply Nat.eqb_neq in H. now rewrite H.
Qed.

(** ** lists of function approximators *)
Lemma skipn_skipn' {A} x : forall y (l : list A), skipn x (skipn y l) = skipn (y + x) l.
Proof.
  intros y. induction y as [|y IH]; intros l; [reflexivity|]. destruct l as [|a l]; [now rewrite !skipn_nil|]. cbn. apply IH.
Qed.
Definition sel_fas (fs : list fa) : Prop := Forall (fun f => is_trained f = true -> selectable f) fs.
Lemma fas_get_size fs : sel_fas fs -> exists v, fas_get fs = Ok v /\ fas_size fs = Ok (length v).
Proof.
  induction 1 as [|f fs H HF (v & G & S)]; [exists []; auto|]. cbn [fas_get fas_size].
  destruct (is_trained f) eqn:T; [|eauto]. destruct (fa_get_size f (H eq_refl)) as (w & Gw & Sw).
  exists (w ++ v)%list. rewrite Gw, Sw, G, S. cbn. rewrite app_length. auto.
Qed.
Lemma fas_set_ok fs : forall v n, sel_fas fs -> fas_size fs = Ok n -> (n <= length v)%nat ->
  exists fs', fas_set fs v = (fs', Ok (skipn n v)) /\ fas_get fs' = Ok (firstn n v) /\ fas_size fs' = Ok n /\ sel_fas fs' /\ same_fas fs fs'.
Proof.
  induction fs as [|f fs IH]; intros v n H S L.
  { cbn in S. injection S as <-. exists []. repeat split; constructor. }
  inversion H as [|? ? Hf Hfs]; subst. cbn [fas_size fas_set] in *. destruct (is_trained f) eqn:T.
  - destruct (fa_get_size f (Hf eq_refl)) as (w & Gw & Sw). rewrite Sw in S |- *. cbn [bind] in S.
    destruct (fas_size fs) as [m|] eqn:Em; [|discriminate]. cbn in S. injection S as <-.
    assert (Lw : length (firstn (length w) v) = length w) by (rewrite firstn_length; lia).
    destruct (fa_set_ok f (firstn (length w) v) (Hf eq_refl)) as (f' & E & G & Sf & Sel); [rewrite Sw; congruence|].
    rewrite E. destruct (IH (skipn (length w) v) m Hfs eq_refl) as (fs' & E2 & G2 & S2 & F2 & M2); [rewrite skipn_length; lia|].
    rewrite E2. exists (f' :: fs'). rewrite skipn_skipn'.
    split; [reflexivity|]. assert (T' : is_trained f' = true) by (destruct Sel; assumption). cbn [fas_get fas_size]. rewrite T', G, G2, Sf, S2. cbn.
    split. { f_equal. rewrite <- (firstn_skipn (length w) (firstn (length w + m) v)).
      rewrite firstn_firstn, firstn_skipn_comm. rewrite Nat.min_l by lia. reflexivity. }
    split; [now rewrite Lw|]. split; [constructor; auto|]. constructor; [|exact M2]. split; [eapply fa_set_same; eauto|congruence].
  - destruct (IH v n Hfs S L) as (fs' & E2 & G2 & S2 & F2 & M2). rewrite E2. exists (f :: fs'). split; [reflexivity|].
    cbn [fas_get fas_size]. rewrite T. split; [exact G2|]. split; [exact S2|]. split; [constructor; auto; congruence|].
    constructor; [|exact M2]. split; [apply same_but_refl|reflexivity].
Qed.
Lemma fas_set_get fs : forall v rest, sel_fas fs -> fas_get fs = Ok v -> fas_set fs (v ++ rest)%list = (fs, Ok rest).
Proof.
  induction fs as [|f fs IH]; intros v rest H G; [cbn in *; injection G as <-; reflexivity|].
  inversion H as [|? ? Hf Hfs]; subst. cbn [fas_get fas_set] in *. destruct (is_trained f) eqn:T.
  - destruct (fa_get_size f (Hf eq_refl)) as (w & Gw & Sw). rewrite Gw in G. cbn [bind] in G. rewrite Sw.
    destruct (fas_get fs) as [u|] eqn:Eu; [|discriminate]. cbn in G. injection G as <-. rewrite <- app_assoc.
    rewrite firstn_app, Nat.sub_diag, firstn_all, app_nil_r, (fa_set_get f w (Hf eq_refl) Gw).
    rewrite skipn_app, Nat.sub_diag, skipn_all. cbn [app skipn]. now rewrite (IH u rest Hfs eq_refl).
  - now rewrite (IH v rest Hfs G).
Qed.

(** ** DMPs *)
Lemma mem_In n l : mem n l = true <-> In n l.
Proof.
  unfold mem. rewrite existsb_exists. split; [intros (x & Hx & E); apply String.eqb_eq in E; now subst|].
  intros H. exists n. split; [exact H|apply String.eqb_refl].
Qed.
Lemma dmp_get_size p : selectable_dmp p -> exists v, dmp_get p = Ok v /\ dmp_size p = Ok (length v).
Proof.
  intros [F L]. destruct (fas_get_size (fas_of p) F) as (v & G & S). unfold dmp_get, dmp_size. rewrite G, S. cbn.
  eexists. split; [reflexivity|]. rewrite app_length. destruct (mem "goal" (p_sel p)); cbn; [now rewrite L|reflexivity].
Qed.
Lemma dmp_get_parts p v : selectable_dmp p -> dmp_get p = Ok v -> exists w, fas_get (fas_of p) = Ok w /\
  v = (w ++ if mem "goal" (p_sel p) then p_attr p else [])%list.
Proof.
  intros _ H. unfold dmp_get in H. destruct (fas_get (fas_of p)) as [w|]; [|discriminate]. cbn in H. injection H as <-. eauto.
Qed.
Lemma skipn_all_n {A} (l : list A) n : n = length l -> skipn n l = [].
Proof. intros ->. apply skipn_all. Qed.
Lemma firstn_all_n {A} (l : list A) n : n = length l -> firstn n l = l.
Proof. intros ->. apply firstn_all. Qed.
Lemma dmp_set_ok p v : selectable_dmp p -> dmp_size p = Ok (length v) ->
  exists p', dmp_set p v = (p', Ok tt) /\ dmp_get p' = Ok v /\ dmp_size p' = Ok (length v) /\ selectable_dmp p' /\
    same_fas (fas_of p) (fas_of p') /\ p_sel p' = p_sel p /\ p_dim p' = p_dim p /\
    p_attr p' = (if mem "goal" (p_sel p) then skipn (length v - p_dim p) v else p_attr p).
Proof.
  intros [F L] S. unfold dmp_set. rewrite S, Nat.eqb_refl. unfold dmp_size in S.
  destruct (fas_get_size (fas_of p) F) as (w & Gw & Sw). rewrite Sw in S. cbn [bind] in S. injection S as S.
  destruct (fas_set_ok (fas_of p) v (length w) F Sw) as (fs' & E & G & S' & F' & M); [lia|]. rewrite E.
  assert (O : fas_of (Pdmp (option_map (fun _ => fs') (p_fas p)) (p_sel p) (p_attr p) (p_dim p)) = fs').
  { unfold fas_of in *. cbn [p_fas]. destruct (p_fas p); [reflexivity|]. cbn. now inversion M. }
  assert (O2 : forall y, fas_of (Pdmp (option_map (fun _ => fs') (p_fas p)) (p_sel p) y (p_dim p)) = fs') by (intros y; exact O).
  destruct (mem "goal" (p_sel p)) eqn:Mg.
  - unfold set_attr. cbn [p_dim p_fas p_sel].
    assert (Hk : firstn (p_dim p) (skipn (length w) v) = skipn (length w) v) by (apply firstn_all_n; rewrite skipn_length; lia).
    rewrite Hk. assert (Hl : length (skipn (length w) v) = p_dim p) by (rewrite skipn_length; lia).
    rewrite Hl, Nat.eqb_refl. eexists. split; [reflexivity|]. unfold dmp_get, dmp_size. rewrite O2. cbn [p_sel p_attr p_dim]. rewrite Mg, G, S'.
    cbn [bind]. rewrite firstn_skipn. split; [reflexivity|]. split; [f_equal; lia|]. unfold selectable_dmp. rewrite O2. cbn [p_attr p_dim].
    repeat split; auto. f_equal. lia.
  - eexists. split; [reflexivity|]. unfold dmp_get, dmp_size. rewrite O. cbn [p_sel p_attr p_dim]. rewrite Mg, G, S'. cbn [bind].
    rewrite firstn_all_n, app_nil_r by lia. split; [reflexivity|]. split; [f_equal; lia|]. unfold selectable_dmp. rewrite O. repeat split; auto.
Qed.
Lemma dmp_set_get p v : selectable_dmp p -> dmp_get p = Ok v -> dmp_set p v = (p, Ok tt).
Proof.
  intros H G. destruct (dmp_get_size p H) as (v' & G' & S). assert (v' = v) by congruence. subst v'.
  destruct (dmp_get_parts p v H G) as (w & Gw & ->). destruct H as [F L].
  unfold dmp_set. rewrite S, Nat.eqb_refl, (fas_set_get (fas_of p) w _ F Gw).
  assert (O : Pdmp (option_map (fun _ => fas_of p) (p_fas p)) (p_sel p) (p_attr p) (p_dim p) = p).
  { destruct p as [[fs|] s a d]; reflexivity. }
  destruct (mem "goal" (p_sel p)); rewrite O; [|reflexivity]. unfold set_attr. rewrite firstn_all_n by congruence.
  rewrite L, Nat.eqb_refl. destruct p; reflexivity.
Qed.
Lemma dmp_set_wrong p v n : dmp_size p = Ok n -> length v <> n -> dmp_set p v = (p, Err ValueError).
Proof. intros S H. unfold dmp_set. rewrite S. apply Nat.eqb_neq in H. now rewrite H. Qed.

(** ** DMPs with schedules *)
Lemma sdmp_get_size s : selectable_sdmp s -> exists v w, dmp_get (s_dmp s) = Ok v /\ fas_get (s_scheds s) = Ok w /\
  sdmp_get s = Ok (v ++ w)%list /\ sdmp_size s = Ok (length v + length w)%nat.
Proof.
  intros [H F]. destruct (dmp_get_size _ H) as (v & G & S). destruct (fas_get_size _ F) as (w & Gw & Sw).
  exists v, w. unfold sdmp_get, sdmp_size. rewrite G, S, Gw, Sw. auto.
Qed.
Lemma sdmp_set_ok s v k : selectable_sdmp s -> sdmp_size s = Ok (length v) -> dmp_size (s_dmp s) = Ok k ->
  exists s', sdmp_set s v = (s', Ok tt) /\ dmp_get (s_dmp s') = Ok (firstn k v) /\ fas_get (s_scheds s') = Ok (skipn k v) /\
    sdmp_get s' = Ok v /\ selectable_sdmp s'.
Proof.
  intros [H F] S K. destruct (dmp_get_size _ H) as (a & Ga & Sa). assert (k = length a) by congruence. subst k.
  destruct (fas_get_size _ F) as (b & Gb & Sb). unfold sdmp_size in S. rewrite Sa, Sb in S. cbn in S. injection S as S.
  unfold sdmp_set, sdmp_size. rewrite Sa, Sb. cbn [bind]. rewrite S, Nat.eqb_refl.
  assert (Lk : length (firstn (length a) v) = length a) by (rewrite firstn_length; lia).
  destruct (dmp_set_ok (s_dmp s) (firstn (length a) v) H) as (p' & E & G & S' & Sel & _); [congruence|].
  assert (E' : exists p2, (if Nat.ltb 0 (length a) then dmp_set (s_dmp s) (firstn (length a) v) else (s_dmp s, Ok tt)) = (p2, Ok tt) /\
                dmp_get p2 = Ok (firstn (length a) v) /\ selectable_dmp p2).
  { destruct (Nat.ltb_spec 0 (length a)) as [|L0]; [eauto|]. exists (s_dmp s). split; [reflexivity|]. split; [|exact H].
    rewrite Ga. destruct a; [reflexivity|cbn in L0; lia]. }
  destruct E' as (p2 & E2 & G2 & Sel2). rewrite E2.
  destruct (fas_set_ok (s_scheds s) (skipn (length a) v) (length b) F Sb) as (fs' & E3 & G3 & S3 & F3 & _); [rewrite skipn_length; lia|].
  rewrite E3. eexists. split; [reflexivity|]. cbn [s_dmp s_scheds]. rewrite firstn_all_n in G3 by (rewrite skipn_length; lia).
  split; [exact G2|]. split; [exact G3|]. unfold sdmp_get. cbn [s_dmp s_scheds]. rewrite G2, G3. cbn. rewrite firstn_skipn. split; [reflexivity|]. split; assumption.
Qed.
Lemma sdmp_set_get s v : selectable_sdmp s -> sdmp_get s = Ok v -> sdmp_set s v = (s, Ok tt).
Proof.
  intros H G. destruct (sdmp_get_size s H) as (a & b & Ga & Gb & G' & S). assert (v = (a ++ b)%list) by congruence. subst v.
  destruct H as [H F]. unfold sdmp_set. rewrite S, app_length, Nat.eqb_refl.
  destruct (dmp_get_size _ H) as (a' & Ga' & Sa). assert (a' = a) by congruence. subst a'. rewrite Sa.
  rewrite firstn_app, Nat.sub_diag, firstn_all, app_nil_r, skipn_app, Nat.sub_diag, skipn_all. cbn [app skipn].
  pose proof (fas_set_get (s_scheds s) b [] F Gb) as E. rewrite app_nil_r in E.
  destruct (Nat.ltb 0 (length a)); [rewrite (dmp_set_get _ _ H Ga)|]; rewrite E; destruct s; reflexivity.
Qed.

(** ** selection *)
Lemma dmp_select_sel p n : p_sel (dmp_select p n) = if mem "goal" (name_list n) then ["goal"] else p_sel p.
Proof. reflexivity. Qed.
Lemma dmp_select_fas p n f : In f (fas_of (dmp_select p n)) -> exists g, In g (fas_of p) /\ f_model f = f_model g /\ f_dim f = f_dim g /\
  exists l, f_sel f = Some l /\ forall x, In x l <-> In x (name_list n) /\ x <> "goal".
Proof.
  unfold fas_of, dmp_select. cbn [p_fas]. destruct (p_fas p) as [fs|]; [|intros []]. cbn. intros H.
  apply in_map_iff in H. destruct H as (g & <- & Hg). exists g. repeat split; auto. cbn. eexists. split; [reflexivity|].
  intros x. destruct (mem "goal" (name_list n)) eqn:E.
  - rewrite filter_In, Bool.negb_true_iff, String.eqb_neq. tauto.
  - split; [|tauto]. intros Hx. split; [exact Hx|]. intros ->. apply mem_In in Hx. congruence.
Qed.

(** ** bounds *)
Lemma nth_set_nth_eq {A} (l : list A) i v d : (i < length l)%nat -> nth i (set_nth l i v) d = v.
Proof. revert i. induction l as [|x l IH]; intros [|i] H; cbn in *; try lia; auto. apply IH. lia. Qed.
Lemma nth_set_nth_neq {A} (l : list A) i j v d : i <> j -> nth j (set_nth l i v) d = nth j l d.
Proof. revert i j. induction l as [|x l IH]; intros [|i] [|j] H; cbn in *; try lia; auto. Qed.
Lemma length_set_nth {A} (l : list A) i v : length (set_nth l i v) = length l.
Proof. revert i. induction l as [|x l IH]; intros [|i]; cbn; auto. Qed.
Lemma clip_in lo hi x : (forall l h, lo = Some l -> hi = Some h -> (l <= h)%R) ->
  (forall l, lo = Some l -> (l <= clip lo hi x)%R) /\ (forall h, hi = Some h -> (clip lo hi x <= h)%R).
Proof.
  intros H. unfold clip. split.
  - intros l ->. destruct hi as [h|]; [|apply Rmax_l]. apply Rmin_glb; [now apply H|apply Rmax_l].
  - intros h ->. apply Rmin_l.
Qed.
Lemma clip_id lo hi x : (forall l, lo = Some l -> (l <= x)%R) -> (forall h, hi = Some h -> (x <= h)%R) -> clip lo hi x = x.
Proof.
  intros Hl Hh. unfold clip.
  assert (E : match lo with Some l => Rmax l x | None => x end = x) by (destruct lo as [l|]; [apply Rmax_right; auto|reflexivity]).
  rewrite E. destruct hi as [h|]; [|reflexivity]. apply Rmin_right. auto.
Qed.
(** cell (k,j) after the loop over columns i..i+n-1 *)
Lemma clip_columns_cells n : forall i lo hi m m', mat_wf m -> clip_columns lo hi n i m = Ok m' ->
  mcols m' = mcols m /\ mat_wf m' /\ length (mrows m') = length (mrows m) /\ (i + n <= mcols m \/ n = 0)%nat /\
  forall k j, (k < length (mrows m))%nat ->
    (((i <= j < i + n)%nat -> exists l h, bound_at lo j = Ok l /\ bound_at hi j = Ok h /\
        mget m' k j = clip l h (mget m k j)) /\
     (~ (i <= j < i + n)%nat -> mget m' k j = mget m k j)).
Proof.
  induction n as [|n IH]; intros i lo hi m m' W H; cbn [clip_columns] in H.
  { injection H as <-. repeat split; auto. all: lia. }
  destruct (bound_at lo i) as [l|] eqn:El; [|discriminate]. cbn [bind] in H.
  destruct (bound_at hi i) as [h|] eqn:Eh; [|discriminate]. cbn [bind] in H.
  destruct (Nat.ltb_spec i (mcols m)) as [Hi|]; [|discriminate].
  set (m1 := Mat (mcols m) (map (fun r => set_nth r i (clip l h (nth i r 0%R))) (mrows m))) in *.
  assert (H' : clip_columns lo hi n (S i) m1 = Ok m') by (destruct l, h; (exact H || discriminate)).
  assert (W1 : mat_wf m1).
  { unfold mat_wf, m1 in *. cbn. rewrite Forall_map. eapply Forall_impl; [|exact W]. cbn. intros r Hr. now rewrite length_set_nth. }
  destruct (IH _ _ _ _ _ W1 H') as (C & W' & L & B & Ce). cbn [m1 mcols mrows] in *. rewrite map_length in L.
  split; [exact C|]. split; [exact W'|]. split; [exact L|]. split; [left; destruct B; lia|].
  intros k j Hk. specialize (Ce k j). rewrite map_length in Ce. specialize (Ce Hk). destruct Ce as [C1 C2].
  assert (Rk : length (nth k (mrows m) []) = mcols m).
  { unfold mat_wf in W. rewrite Forall_forall in W. apply W. now apply nth_In. }
  assert (Cell : forall j', mget m1 k j' = if Nat.eqb j' i then clip l h (mget m k i) else mget m k j').
  { intros j'. unfold mget, m1. cbn [mrows].
    rewrite (nth_indep (map (fun r => set_nth r i (clip l h (nth i r 0%R))) (mrows m)) [] (set_nth [] i (clip l h (nth i [] 0%R)))) by (rewrite map_length; exact Hk).
    rewrite (map_nth (fun r => set_nth r i (clip l h (nth i r 0%R)))). destruct (Nat.eqb_spec j' i) as [->|N].
    - apply nth_set_nth_eq. lia.
    - apply nth_set_nth_neq. auto. }
  split.
  - intros Hj. destruct (Nat.eq_dec j i) as [->|N].
    + exists l, h. split; [exact El|]. split; [exact Eh|]. rewrite C2 by lia. rewrite Cell, Nat.eqb_refl. reflexivity.
    + destruct C1 as (l' & h' & E1 & E2 & E3); [lia|]. exists l', h'. rewrite E3, Cell. apply Nat.eqb_neq in N. rewrite N. auto.
  - intros Hj. rewrite C2 by lia. rewrite Cell. assert (N : j <> i) by lia. apply Nat.eqb_neq in N. now rewrite N.
Qed.
