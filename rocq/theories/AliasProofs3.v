(** Function approximators are described correctly. *)
From Coq Require Import String.
From Verif Require Import Base BaseLemmas ParamModel AliasModel AliasFa AliasSpec AliasProofs AliasProofs2.
Open Scope R_scope.

(** ** positions of keys *)
Fixpoint pos (keys : list string) (k : string) : nat :=
  match keys with [] => 0 | k' :: r => if String.eqb k k' then 0 else S (pos r k) end%nat.
Lemma assign_pos {V} (d : list (string * V)) k v : In k (map fst d) ->
  assign d k v = set_nth d (pos (map fst d) k) (k, v) /\ (pos (map fst d) k < length d)%nat.
Proof.
  induction d as [|[k' v'] d IH]; cbn; [tauto|]. intros H. destruct (String.eqb_spec k k') as [->|N].
  - split; [reflexivity|lia].
  - destruct IH as [I1 I2]; [destruct H; congruence|]. rewrite I1. split; [reflexivity|lia].
Qed.
Lemma lookup_in {V} (d : list (string * V)) k v : lookup d k = Some v -> In k (map fst d).
Proof. induction d as [|[k' v'] d IH]; cbn; [discriminate|]. destruct (String.eqb_spec k k') as [->|N]; auto. Qed.
Lemma assign_keys {V} (d : list (string * V)) k v : In k (map fst d) -> map fst (assign d k v) = map fst d.
Proof.
  induction d as [|[k' v'] d IH]; cbn; [tauto|]. intros H. destruct (String.eqb_spec k k') as [->|N]; [reflexivity|]. cbn. f_equal. apply IH. destruct H; congruence.
Qed.
Lemma map_set_nth {A B} (g : A -> B) l i v : map g (set_nth l i v) = set_nth (map g l) i (g v).
Proof. revert i; induction l as [|x l IH]; intros [|i]; cbn; trivial. now rewrite IH. Qed.

(** ** slices *)
Lemma slice_length off len (v : list R) : (off + len <= length v)%nat -> length (slice off len v) = len.
Proof. intros H. unfold slice. rewrite firstn_length_le; [reflexivity|]. rewrite skipn_length. lia. Qed.
Lemma slice_firstn off len n (v : list R) : (n <= len)%nat -> firstn n (slice off len v) = slice off n v.
Proof. intros H. unfold slice. rewrite firstn_firstn. f_equal. lia. Qed.
Lemma slice_skipn off len n (v : list R) : (n <= len)%nat -> skipn n (slice off len v) = slice (off + n) (len - n) v.
Proof. intros H. unfold slice. rewrite skipn_firstn_comm. now rewrite skipn_add. Qed.

(** ** set_param_vector *)
(** the same names and shapes *)
Definition alike (p q : string * pval) : Prop :=
  fst p = fst q /\ match snd p, snd q with PArr a, PArr b => ashape a = ashape b | a, b => a = b end.
Lemma alike_lookup m m' : Forall2 alike m m' -> forall k,
  match lookup m k, lookup m' k with
  | Some (PArr a), Some (PArr b) => ashape a = ashape b
  | Some a, Some b => a = b
  | None, None => True
  | _, _ => False
  end.
Proof.
  induction 1 as [|[n v] [n' v'] m m' [H1 H2] _ IH]; intros k; cbn; trivial. cbn in H1, H2. subst n'. destruct (String.eqb k n); [|apply IH].
  destruct v, v'; trivial.
Qed.
Lemma alike_refl m : Forall2 alike m m.
Proof. induction m as [|[n v] m IH]; constructor; trivial. split; [reflexivity|]. destruct v; reflexivity. Qed.
Lemma alike_assign m m' k a d : Forall2 alike m m' -> lookup m k = Some (PArr a) -> Forall2 alike m (assign m' k (PArr (Arr (ashape a) d))).
Proof.
  induction 1 as [|[n v] [n' v'] m m' [H1 H2] F IH]; cbn; [discriminate|]. cbn in H1, H2. subst n'. intros E. destruct (String.eqb k n).
  - constructor; [|exact F]. split; [reflexivity|]. cbn. injection E as ->. reflexivity.
  - constructor; [split; trivial|]. now apply IH.
Qed.
Section Vec.
Variable V : list R.       (* the argument *)
Variable m0 : model.
(** where the arrays of m come from *)
Definition from (m : model) (srcs : list (string * source)) : Prop :=
  map fst srcs = map fst m0 /\ map fst m = map fst m0 /\
  forall i, (i < length m0)%nat -> match snd (nth i srcs (""%string, Keep)) with
    | Keep => nth i (ents m) [] = nth i (ents m0) []
    | Arg k off len => k = 0%nat /\ (off + len <= length V)%nat /\ nth i (ents m) [] = slice off len V
    | _ => False
    end.
Lemma set_values_from sel : forall m srcs off len m', Forall2 alike m0 m -> from m srcs -> (off + len <= length V)%nat ->
  set_values m sel (slice off len V) = (m', Ok tt) -> from m' (vec_sources m0 srcs sel off) /\ Forall2 alike m0 m'.
Proof.
  induction sel as [|l sel IH]; intros m srcs off len m' A F HL H; cbn in H |- *.
  - injection H as <-. now split.
  - pose proof (alike_lookup _ _ A l) as Q. destruct (lookup m l) as [[|a|r]|] eqn:El; try discriminate.
    destruct (lookup m0 l) as [[|a0|r]|] eqn:El0; try contradiction; try discriminate. destruct a as [s d]. destruct s as [|s0 s]; [discriminate|].
    set (n := prod (s0 :: s)) in *. cbn [ashape] in Q. rewrite Q.
    destruct (Nat.eqb_spec (length (firstn n (slice off len V))) n) as [Ln|]; [|discriminate].
    assert (Hn : (n <= len)%nat). { rewrite firstn_length, (slice_length off len V HL) in Ln. lia. }
    rewrite slice_firstn, slice_skipn in H by exact Hn. fold n.
    eapply IH; [| | |exact H].
    + replace (Arr (s0 :: s) (slice off n V)) with (Arr (ashape a0) (slice off n V)) by (now rewrite Q). now apply alike_assign.
    + destruct F as (F1 & F2 & F3). assert (I1 : In l (map fst m)) by (eapply lookup_in; exact El). assert (I2 : In l (map fst srcs)) by (now rewrite F1, <- F2).
      split; [now rewrite assign_keys|]. split; [now rewrite assign_keys|]. intros i Hi.
      destruct (assign_pos m l (PArr (Arr (s0 :: s) (slice off n V))) I1) as [P1 P2]. destruct (assign_pos srcs l (Arg 0 off n) I2) as [P3 P4].
      rewrite P1, P3. rewrite F2 in P2 |- *. rewrite F1 in P4 |- *. unfold ents. rewrite map_set_nth. cbn [snd pdata adata].
      destruct (Nat.eq_dec (pos (map fst m0) l) i) as [E|E].
      * rewrite E in *. rewrite nth_set_same by exact P4. cbn [snd]. split; [reflexivity|]. split; [lia|]. apply nth_set_same. now rewrite map_length.
      * rewrite !nth_set_other by exact E. exact (F3 i Hi).
    + lia.
Qed.
Lemma kept_from : from m0 (kept m0).
Proof.
  unfold kept. split; [now rewrite map_map|]. split; [reflexivity|]. intros i Hi.
  rewrite (nth_indep _ _ ((fun p => (fst p, Keep)) (""%string, PNone))) by (now rewrite map_length). rewrite (map_nth (fun p => (fst p, Keep))). reflexivity.
Qed.
End Vec.
(** the source of each array of f' *)
Definition sources_ok (V : list R) (old new : list (list R)) (srcs : list source) : Prop :=
  length new = length old /\ length srcs = length old /\
  forall i, (i < length old)%nat -> match nth i srcs Keep with
    | Keep => nth i new [] = nth i old []
    | Arg k off len => k = 0%nat /\ (off + len <= length V)%nat /\ nth i new [] = slice off len V
    | _ => False
    end.
Lemma from_ok V m0 m srcs : from V m0 m srcs -> sources_ok V (ents m0) (ents m) (map snd srcs).
Proof.
  intros (F1 & F2 & F3). assert (L1 : length srcs = length m0) by (rewrite <- (map_length fst srcs), F1; apply map_length).
  assert (L2 : length m = length m0) by (rewrite <- (map_length fst m), F2; apply map_length).
  unfold sources_ok, ents. rewrite !map_length. split; [exact L2|]. split; [exact L1|]. intros i Hi. specialize (F3 i Hi).
  change Keep with (snd (""%string, Keep)) at 1. rewrite map_nth. exact F3.
Qed.
Lemma kept_ok V m : sources_ok V (ents m) (ents m) (map snd (kept m)).
Proof. apply from_ok, kept_from. Qed.
Lemma fa_set_ok V f off len f' : (off + len <= length V)%nat -> fa_set f (slice off len V) = (f', Ok tt) ->
  sources_ok V (ents (f_model f)) (ents (f_model f')) (fa_sources f off) /\ f_dim f' = f_dim f /\ f_sel f' = f_sel f.
Proof.
  unfold fa_set, fa_sources. intros HL. destruct (is_trained f); [|discriminate]. destruct (fa_size f); [|discriminate].
  destruct (Nat.eqb _ _); [|discriminate]. destruct (f_sel f) as [sel|] eqn:Es; [|discriminate].
  destruct (set_values (f_model f) sel (slice off len V)) as [m' r] eqn:E. intros H. injection H as <- ->. cbn [f_model f_dim f_sel].
  split; [|now split]. apply from_ok. eapply set_values_from; [apply alike_refl|apply kept_from|exact HL|exact E].
Qed.
Lemma sources_app V o1 o2 n1 n2 s1 s2 : sources_ok V o1 n1 s1 -> sources_ok V o2 n2 s2 -> sources_ok V (o1 ++ o2) (n1 ++ n2) (s1 ++ s2).
Proof.
  intros (A1 & A2 & A3) (B1 & B2 & B3). split; [rewrite !app_length; lia|]. split; [rewrite !app_length; lia|]. intros i Hi. rewrite app_length in Hi.
  destruct (Nat.lt_ge_cases i (length o1)) as [H|H].
  - rewrite !app_nth1 by lia. now apply A3.
  - rewrite !app_nth2 by lia. rewrite A1, A2. apply B3. lia.
Qed.
Lemma fas_set_ok V fs : forall off len fs' rest, (off + len <= length V)%nat -> fas_set fs (slice off len V) = (fs', Ok rest) ->
  sources_ok V (fas_arrays fs) (fas_arrays fs') (fas_sources fs off) /\ exists k, fas_size fs = Ok k /\ (k <= len)%nat /\ rest = slice (off + k) (len - k) V.
Proof.
  induction fs as [|f fs IH]; intros off len fs' rest HL H; cbn [fas_set] in H.
  - injection H as <- <-. split; [split; [reflexivity|]; split; [reflexivity|]; cbn; intros; lia|]. exists 0%nat. rewrite Nat.add_0_r, Nat.sub_0_r. split; [reflexivity|]. split; [lia|reflexivity].
  - cbn [fas_sources fas_arrays flat_map]. destruct (is_trained f) eqn:Et.
    + destruct (fa_size f) as [n|] eqn:En; [|discriminate]. destruct (fa_set f (firstn n (slice off len V))) as [f' [[]|e]] eqn:Ef; [|discriminate].
      destruct (fas_set fs (skipn n (slice off len V))) as [fs2 r] eqn:Efs. injection H as <- ->.
      assert (Hn : (n <= len)%nat).
      { unfold fa_set in Ef. rewrite Et, En in Ef. destruct (Nat.eqb_spec (length (firstn n (slice off len V))) n) as [Q|]; [|discriminate].
        rewrite firstn_length, slice_length in Q by exact HL. lia. }
      rewrite slice_firstn in Ef by exact Hn. rewrite slice_skipn in Efs by exact Hn.
      destruct (fa_set_ok V f off n f' ltac:(lia) Ef) as (S1 & _ & _). assert (HL2 : (off + n + (len - n) <= length V)%nat) by lia. destruct (IH _ _ _ _ HL2 Efs) as (S2 & k & Ek & Hk & ->).
      split; [now apply sources_app|]. exists (n + k)%nat. cbn [fas_size]. rewrite Et, En, Ek. split; [reflexivity|]. split; [lia|]. f_equal; lia.
    + destruct (fas_set fs (slice off len V)) as [fs2 r] eqn:Efs. injection H as <- ->. destruct (IH _ _ _ _ HL Efs) as (S2 & k & Ek & Hk & ->).
      split; [apply sources_app; [apply kept_ok|exact S2]|]. exists k. cbn [fas_size]. now rewrite Et.
Qed.
Lemma ents_put_get i m : ents_put i (nth i (ents m) []) m = m.
Proof. revert i; induction m as [|[n v] m IH]; intros [|i]; cbn; trivial; [|now rewrite IH]. destruct v as [|[s d]|]; reflexivity. Qed.
Lemma ents_length m : length (ents m) = length m.
Proof. unfold ents. apply map_length. Qed.
Lemma fas_put_get fs : forall i, (i < length (fas_arrays fs))%nat -> fas_put i (nth i (fas_arrays fs) []) fs = fs.
Proof.
  induction fs as [|f fs IH]; intros i Hi; cbn [fas_put fas_arrays flat_map] in *; [cbn in Hi; lia|].
  destruct (Nat.ltb_spec i (length (f_model f))) as [H|H].
  - rewrite app_nth1 by (now rewrite ents_length). unfold f_put. rewrite ents_put_get. now destruct f.
  - rewrite app_nth2 by (now rewrite ents_length). rewrite ents_length. rewrite app_length, ents_length in Hi. f_equal. apply IH. unfold fas_arrays. lia.
Qed.

(** ** one function approximator *)
Section Fa.
Variable train_fn : list R -> list R -> res model.
Variable predict_fn : model -> list R -> res (list R).
Variable holds : string -> bool.
Hypothesis Hold : forall x t ps, train_fn x t = Ok ps -> forall n v, In (n, v) ps -> holds n = true -> pdata v = x.
Notation K := (approximators train_fn predict_fn holds).
Lemma fa_described : described K fa_keeps fa_shares.
Proof.
  constructor.
  - intros i f _. cbn. unfold f_put. rewrite ents_put_get. now destruct f.
  - intros c f args f' rs H. cbn [meth approximators] in H. destruct c as [| |n| |]; cbn [f_meth] in H.
    + destruct args as [|x [|t [|]]]; try discriminate. destruct x as [|x0 x]; [discriminate|]. set (X := x0 :: x) in *.
      destruct (train_fn X t) as [ps|] eqn:Ep; [|discriminate]. cbn [bind] in H. injection H as <- <-. split.
      * intros i Hi. cbn [nf approximators f_model] in Hi. cbn [binds approximators f_binds get f_model fa_keeps]. rewrite Ep.
        destruct (holds (fst (nth i ps (""%string, PNone)))) eqn:Eh; [|split; [exact I|discriminate]].
        split; [|intros k off len Q; injection Q as <- _ _; now left]. split; [cbn; lia|]. cbn [nth]. split; [lia|].
        rewrite (slice_all _ X eq_refl). unfold ents. rewrite (nth_indep _ [] (pdata (snd (""%string, PNone)))) by (now rewrite map_length).
        rewrite (map_nth (fun p => pdata (snd p))). eapply Hold; [exact Ep| |exact Eh]. rewrite <- surjective_pairing. now apply nth_In.
      * intros j Hj. rewrite ents_length in Hj. cbn [rets approximators f_rets f_model get nf fa_shares].
        rewrite (nth_map_seq' (fun i => RField i 0 (length (nth i (ents ps) [])))) by exact Hj.
        split; [apply in_seq; lia|]. split; [exact Hj|]. split; [lia|]. symmetry. now apply slice_all.
    + destruct args as [|x [|]]; try discriminate. destruct (predict f _ (In1 x)); [|discriminate]. cbn [bind] in H. injection H as <- <-. split.
      * intros i Hi. split; [exact (conj Hi eq_refl)|discriminate].
      * intros j _. cbn. now destruct j.
    + destruct args; [|discriminate]. injection H as <- <-. split.
      * intros i Hi. split; [exact (conj Hi eq_refl)|discriminate].
      * intros j _. cbn. now destruct j.
    + destruct args; [|discriminate]. destruct (fa_get f); [|discriminate]. cbn [bind] in H. injection H as <- <-. split.
      * intros i Hi. split; [exact (conj Hi eq_refl)|discriminate].
      * intros j _. cbn. now destruct j.
    + destruct args as [|v [|]]; try discriminate. destruct (fa_set f v) as [f1 [[]|e]] eqn:Ef; [|discriminate]. injection H as <- <-.
      assert (Ev : v = slice 0 (length v) v) by (symmetry; now apply slice_all). rewrite Ev in Ef.
      destruct (fa_set_ok v f 0 (length v) f1 ltac:(lia) Ef) as ((L1 & L2 & S) & _ & _). rewrite !ents_length in *. split.
      * intros i Hi. cbn [nf approximators] in Hi. rewrite L1 in Hi. specialize (S i Hi). cbn [binds approximators f_binds get fa_keeps].
        destruct (nth i (fa_sources f 0) Keep) as [| |k off len|g]; try contradiction.
        -- split; [exact (conj Hi S)|discriminate].
        -- destruct S as (-> & S1 & S2). split; [|intros k o l Q; injection Q as <- _ _; now left]. split; [cbn; lia|]. split; [exact S1|exact S2].
      * intros j _. cbn. now destruct j.
Qed.
(** ** Theorem: careful programs with a function approximator *)
Theorem careful_fa f args es : careful (f_meth train_fn predict_fn) fa_keeps fa_shares f args [] es ->
  run_fa train_fn predict_fn holds f args es = by_value (f_meth train_fn predict_fn) f args es.
Proof.
  intros H. apply (run_careful K fa_keeps fa_shares fa_described f args (fun _ => New) []); [|exact H].
  intros i _. split; [exact I|discriminate].
Qed.
End Fa.
