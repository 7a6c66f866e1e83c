(** Lemmas about decimal formatting and get_base_name. *)
From Coq Require Import String Ascii NArith.
From Verif Require Import Base SessionModel.
Open Scope string_scope.

Lemma app_assoc_s (a b c : string) : (a ++ b) ++ c = a ++ (b ++ c).
Proof. induction a as [|x a IH]; cbn; [reflexivity|now rewrite IH]. Qed.
Lemma app_length_s a b : String.length (a ++ b) = (String.length a + String.length b)%nat.
Proof. induction a as [|x a IH]; cbn; [reflexivity|now rewrite IH]. Qed.
Lemma app_nil_s a : a ++ "" = a.
Proof. induction a as [|x a IH]; cbn; [reflexivity|now rewrite IH]. Qed.
Lemma app_inv_head_s a b c : a ++ b = a ++ c -> b = c.
Proof. induction a as [|x a IH]; cbn; intros H; [exact H|]. injection H; auto. Qed.
Lemma app_same_length a b c d : String.length a = String.length b -> a ++ c = b ++ d -> a = b /\ c = d.
Proof.
  revert b; induction a as [|x a IH]; intros [|y b] Hl H; cbn in *; try discriminate; [auto|].
  injection H as -> H. destruct (IH b) as [-> ->]; auto.
Qed.

Fixpoint all_char (P : ascii -> Prop) (s : string) : Prop :=
  match s with EmptyString => True | String c s' => P c /\ all_char P s' end.
Lemma all_char_app P a b : all_char P (a ++ b) <-> all_char P a /\ all_char P b.
Proof. induction a as [|x a IH]; cbn; [tauto|]. rewrite IH. tauto. Qed.
Lemma all_char_impl (P Q : ascii -> Prop) s : (forall c, P c -> Q c) -> all_char P s -> all_char Q s.
Proof. intros H; induction s; cbn; [auto|]. intros [H1 H2]; auto. Qed.

Definition digits (s : string) : Prop := all_char (fun c => is_digit c = true) s.

Lemma digit_chars n : (n < 10)%N -> exists c, digit n = String c "" /\ is_digit c = true /\ (N_of_ascii c = 48 + n)%N.
Proof.
  intros H. unfold digit. exists (ascii_of_N (48 + n)). split; [reflexivity|].
  assert (E : N_of_ascii (ascii_of_N (48 + n)) = (48 + n)%N) by (apply N_ascii_embedding; lia).
  unfold is_digit. rewrite E. split; [|reflexivity].
  apply andb_true_intro; split; apply N.leb_le; lia.
Qed.

Lemma fixd_digits w n : digits (fixd w n).
Proof.
  revert n; induction w as [|w IH]; intros n; cbn [fixd]; [exact I|].
  apply all_char_app. split; [apply IH|].
  destruct (digit_chars (n mod 10)%N) as (c & -> & Hc & _); [apply N.mod_lt; lia|]. cbn. auto.
Qed.
Lemma fixd_length w n : String.length (fixd w n) = w.
Proof.
  revert n; induction w as [|w IH]; intros n; cbn [fixd]; [reflexivity|].
  rewrite app_length_s, IH. cbn. lia.
Qed.

Lemma parse_go_app acc a b m : parse_go acc a = Some m -> parse_go acc (a ++ b) = parse_go m b.
Proof.
  revert acc; induction a as [|c a IH]; intros acc; cbn; [intros H; injection H as ->; reflexivity|].
  destruct (is_digit c); [apply IH|discriminate].
Qed.

Lemma parse_fixd w n : parse_go 0 (fixd w n) = Some (n mod 10 ^ N.of_nat w)%N.
Proof.
  revert n; induction w as [|w IH]; intros n; cbn [fixd].
  - cbn. now rewrite N.mod_1_r.
  - rewrite (parse_go_app _ _ _ _ (IH _)).
    destruct (digit_chars (n mod 10)%N) as (c & -> & Hc & Hv); [apply N.mod_lt; lia|].
    cbn [parse_go]. rewrite Hc, Hv. f_equal.
    rewrite Nat2N.inj_succ, N.pow_succ_r', N.mod_mul_r by (try lia; apply N.pow_nonzero; lia).
    generalize (n / 10 mod 10 ^ N.of_nat w)%N, (n mod 10)%N. intros a b. lia.
Qed.

Lemma ndig_go_enough f n : (n < 2 ^ N.of_nat f)%N -> (n < 10 ^ N.of_nat (ndig_go f n))%N.
Proof.
  revert n; induction f as [|f IH]; intros n H; cbn [ndig_go].
  - cbn in *. lia.
  - destruct (N.ltb_spec n 10) as [Hl|Hl]; [cbn; lia|].
    assert (Hd : (n / 10 < 2 ^ N.of_nat f)%N).
    { apply N.div_lt_upper_bound; [lia|]. rewrite Nat2N.inj_succ, N.pow_succ_r' in H. lia. }
    apply IH in Hd. rewrite Nat2N.inj_succ, N.pow_succ_r'.
    pose proof (N.div_mod' n 10). pose proof (N.mod_lt n 10). nia.
Qed.
Lemma ndig_enough n : (n < 10 ^ N.of_nat (ndig n))%N.
Proof.
  unfold ndig. apply ndig_go_enough. rewrite Nat2N.inj_succ, N2Nat.id.
  destruct (N.eq_dec n 0) as [->|Hn]; [cbn; lia|]. apply N.log2_spec. lia.
Qed.
Lemma ndig_go_le f n w : (1 <= w)%nat -> (n < 10 ^ N.of_nat w)%N -> (n < 2 ^ N.of_nat f)%N -> (ndig_go f n <= w)%nat.
Proof.
  revert n w; induction f as [|f IH]; intros n w Hw H Hf; cbn [ndig_go]; [lia|].
  destruct (N.ltb_spec n 10) as [Hl|Hl]; [lia|].
  destruct w as [|[|w]]; [lia|cbn in H; lia|].
  apply le_n_S. apply IH; [lia| |].
  - apply N.div_lt_upper_bound; [lia|]. rewrite (Nat2N.inj_succ (S w)), N.pow_succ_r' in H. lia.
  - apply N.div_lt_upper_bound; [lia|]. rewrite Nat2N.inj_succ, N.pow_succ_r' in Hf. lia.
Qed.
Lemma ndig_le n w : (1 <= w)%nat -> (n < 10 ^ N.of_nat w)%N -> (ndig n <= w)%nat.
Proof.
  intros. apply ndig_go_le; auto. rewrite Nat2N.inj_succ, N2Nat.id.
  destruct (N.eq_dec n 0) as [->|Hn]; [cbn; lia|]. apply N.log2_spec. lia.
Qed.

Lemma pow10_mono a b : (a <= b)%nat -> (10 ^ N.of_nat a <= 10 ^ N.of_nat b)%N.
Proof. intros. apply N.pow_le_mono_r; lia. Qed.

Lemma fmt_nonneg w z : (0 <= z)%Z -> fmt w z = fixd (Nat.max w (ndig (Z.to_N z))) (Z.to_N z).
Proof. destruct z; cbn; intros; [reflexivity|reflexivity|lia]. Qed.

Lemma parse_fmt w z : (0 <= z)%Z -> parse_go 0 (fmt w z) = Some (Z.to_N z).
Proof.
  intros H. rewrite fmt_nonneg by exact H. rewrite parse_fixd. f_equal. apply N.mod_small.
  eapply N.lt_le_trans; [apply ndig_enough|]. apply pow10_mono. lia.
Qed.
Lemma fmt_digits w z : (0 <= z)%Z -> digits (fmt w z).
Proof. intros H. rewrite fmt_nonneg by exact H. apply fixd_digits. Qed.
Lemma ndig_pos n : (1 <= ndig n)%nat.
Proof. unfold ndig. cbn [ndig_go]. destruct (n <? 10)%N; lia. Qed.
Lemma fmt_nonempty w z : fmt w z <> "".
Proof.
  intros E. assert (L : String.length (fmt w z) = 0%nat) by now rewrite E.
  destruct z as [|p|p]; cbn [fmt] in L.
  - rewrite fixd_length in L. pose proof (ndig_pos (Z.to_N 0)). lia.
  - rewrite fixd_length in L. pose proof (ndig_pos (Z.to_N (Z.pos p))). lia.
  - rewrite app_length_s in L. cbn in L. lia.
Qed.
Lemma fmt_inj w z z' : (0 <= z)%Z -> (0 <= z')%Z -> fmt w z = fmt w z' -> z = z'.
Proof.
  intros H H' E. assert (P := parse_fmt w z H). rewrite E, (parse_fmt w z' H') in P.
  injection P as P. lia.
Qed.

(** splitting at the first non-digit *)
Lemma digits_split a b c x y :
  digits a -> digits b -> is_digit c = false -> a ++ String c x = b ++ String c y -> a = b /\ x = y.
Proof.
  intros Ha Hb Hc. revert b Hb; induction a as [|d a IH]; intros [|e b] Hb H; cbn in *.
  - injection H as H; auto.
  - injection H as -> H. destruct Hb. congruence.
  - injection H as -> H. destruct Ha. congruence.
  - injection H as -> H. destruct (IH (proj2 Ha) b (proj2 Hb) H) as [-> ->]. auto.
Qed.

Definition no_slash (s : string) : Prop := all_char (fun c => c <> "/"%char) s.

Lemma digit_not_slash c : is_digit c = true -> c <> "/"%char.
Proof. intros H ->. discriminate. Qed.

Lemma no_slash_split a b x y : no_slash a -> no_slash b ->
  a ++ String "/" x = b ++ String "/" y -> a = b /\ x = y.
Proof.
  intros Ha. revert b; induction a as [|d a IH]; intros [|e b] Hb H; cbn in *.
  - injection H as H; auto.
  - injection H as <- H. destruct Hb. congruence.
  - injection H as -> H. destruct Ha. congruence.
  - injection H as -> H. destruct (IH (proj2 Ha) b (proj2 Hb) H) as [-> ->]. auto.
Qed.

(** ** lexicographic order of fixed-width numbers *)
Lemma compare_refl_ascii c : Ascii.compare c c = Eq.
Proof. unfold Ascii.compare. apply N.compare_refl. Qed.

Lemma compare_app a b c d : String.length a = String.length b ->
  String.compare (a ++ c) (b ++ d) =
  match String.compare a b with Eq => String.compare c d | r => r end.
Proof.
  revert b; induction a as [|x a IH]; intros [|y b] Hl; cbn in *; try discriminate; [reflexivity|].
  injection Hl as Hl. destruct (Ascii.compare x y); auto.
Qed.

Lemma compare_digit n m : (n < 10)%N -> (m < 10)%N -> String.compare (digit n) (digit m) = N.compare n m.
Proof.
  intros Hn Hm. destruct (digit_chars n Hn) as (c & -> & _ & Hc).
  destruct (digit_chars m Hm) as (e & -> & _ & He). cbn. unfold Ascii.compare. rewrite Hc, He.
  destruct (N.compare_spec n m) as [->|H|H].
  - now rewrite N.compare_refl.
  - assert (E : (48 + n < 48 + m)%N) by lia. apply N.compare_lt_iff in E. now rewrite E.
  - assert (E : (48 + m < 48 + n)%N) by lia. apply N.compare_gt_iff in E. now rewrite E.
Qed.

Lemma compare_fixd w n m : (n < 10 ^ N.of_nat w)%N -> (m < 10 ^ N.of_nat w)%N ->
  String.compare (fixd w n) (fixd w m) = N.compare n m.
Proof.
  revert n m; induction w as [|w IH]; intros n m Hn Hm; cbn [fixd].
  - cbn in *. assert (n = 0%N) as -> by lia. assert (m = 0%N) as -> by lia. reflexivity.
  - rewrite Nat2N.inj_succ, N.pow_succ_r' in Hn, Hm.
    rewrite compare_app by (now rewrite !fixd_length).
    rewrite IH by (apply N.div_lt_upper_bound; lia).
    rewrite compare_digit by (apply N.mod_lt; lia).
    pose proof (N.div_mod' n 10) as Dn. pose proof (N.div_mod' m 10) as Dm.
    pose proof (N.mod_lt n 10 ltac:(lia)). pose proof (N.mod_lt m 10 ltac:(lia)).
    set (qn := (n / 10)%N) in *. set (qm := (m / 10)%N) in *. set (rn := (n mod 10)%N) in *.
    set (rm := (m mod 10)%N) in *. clearbody qn qm rn rm.
    destruct (N.compare_spec qn qm) as [E|E|E]; [destruct (N.compare_spec rn rm) as [E'|E'|E']| |];
      symmetry; rewrite ?N.compare_eq_iff, ?N.compare_lt_iff, ?N.compare_gt_iff; lia.
Qed.

Lemma fmt5_small z : (0 <= z < 100000)%Z -> fmt 5 z = fixd 5 (Z.to_N z).
Proof.
  intros H. rewrite fmt_nonneg by lia. f_equal. assert (ndig (Z.to_N z) <= 5)%nat; [|lia].
  apply ndig_le; [lia|]. change (10 ^ N.of_nat 5)%N with 100000%N. lia.
Qed.
Lemma compare_fmt5 a b : (0 <= a < 100000)%Z -> (0 <= b < 100000)%Z ->
  String.compare (fmt 5 a) (fmt 5 b) = Z.compare a b.
Proof.
  intros Ha Hb. rewrite !fmt5_small by assumption. rewrite compare_fixd.
  - destruct (Z.compare_spec a b) as [->|H|H]; [apply N.compare_refl| |].
    + apply N.compare_lt_iff. lia. + apply N.compare_gt_iff. lia.
  - change (10 ^ N.of_nat 5)%N with 100000%N. lia.
  - change (10 ^ N.of_nat 5)%N with 100000%N. lia.
Qed.

(** ** keys *)
Lemma key_eqb_eq a b : key_eqb a b = true <-> a = b.
Proof.
  destruct a, b; cbn; try (split; [discriminate|discriminate]); rewrite String.eqb_eq; split; congruence.
Qed.
Lemma key_eqb_refl a : key_eqb a a = true.
Proof. now apply key_eqb_eq. Qed.
Lemma key_eqb_neq a b : a <> b -> key_eqb a b = false.
Proof. intros H. destruct (key_eqb a b) eqn:E; [|reflexivity]. apply key_eqb_eq in E. contradiction. Qed.

(** non-negative integer or absent index *)
Definition nat_idx (i : idx) : Prop := i = INone \/ exists z, (0 <= z)%Z /\ i = IInt z.

Lemma sample_name_cases n n' s s' : nat_idx s -> nat_idx s' ->
  (sample_name n s = sample_name n' s' <->
   (s = s' /\ n = n') \/
   (s = INone /\ exists z, s' = IInt z /\ n = fmt 3 z ++ "_" ++ n') \/
   (s' = INone /\ exists z, s = IInt z /\ n' = fmt 3 z ++ "_" ++ n)).
Proof.
  intros [->|(z & Hz & ->)] [->|(z' & Hz' & ->)]; cbn [sample_name]; split; intros H.
  - left; auto.
  - destruct H as [[_ H]|[[_ (z & H & _)]|[_ (z & H & _)]]]; [exact H|discriminate|discriminate].
  - right; left; split; eauto.
  - destruct H as [[H _]|[[_ (z & H & ->)]|[H _]]]; try discriminate. injection H as <-. reflexivity.
  - right; right; split; eauto.
  - destruct H as [[H _]|[[H _]|[_ (z0 & H & ->)]]]; try discriminate. injection H as <-. reflexivity.
  - apply digits_split in H; auto using fmt_digits. destruct H as [H ->].
    apply fmt_inj in H; auto. subst; left; auto.
  - destruct H as [[H ->]|[[H _]|[H _]]]; try discriminate. injection H as ->. reflexivity.
Qed.

Lemma base_name_cases n n' u u' s s' :
  nat_idx u -> nat_idx u' -> nat_idx s -> nat_idx s' ->
  (get_base_name n u s = get_base_name n' u' s' <->
   u = u' /\ sample_name n s = sample_name n' s').
Proof.
  intros [->|(z & Hz & ->)] [->|(z' & Hz' & ->)] _ _; cbn [get_base_name]; split; intros H; try discriminate.
  - injection H as H; auto.
  - destruct H as [_ ->]; reflexivity.
  - destruct H; discriminate.
  - destruct H; discriminate.
  - injection H as H. apply digits_split in H; auto using fmt_digits. destruct H as [H ->].
    apply fmt_inj in H; auto. subst; auto.
  - destruct H as [H ->]. injection H as ->. reflexivity.
Qed.

Definition no_leading_digit (s : string) : Prop :=
  match s with String c _ => is_digit c = false | EmptyString => True end.

Lemma fmt_app_leading w z x : (0 <= z)%Z -> ~ no_leading_digit (fmt w z ++ x).
Proof.
  intros Hz. pose proof (fmt_digits w z Hz) as D. pose proof (fmt_nonempty w z) as N.
  destruct (fmt w z) as [|c r]; [contradiction|]. cbn in *. destruct D. congruence.
Qed.

Lemma base_name_inj n n' u u' s s' :
  nat_idx u -> nat_idx u' -> nat_idx s -> nat_idx s' ->
  no_leading_digit n -> no_leading_digit n' ->
  get_base_name n u s = get_base_name n' u' s' -> n = n' /\ u = u' /\ s = s'.
Proof.
  intros Hu Hu' Hs Hs' Hn Hn' H. apply base_name_cases in H; auto. destruct H as [-> H].
  apply sample_name_cases in H; auto.
  destruct H as [[-> ->]|[[-> (z & -> & ->)]|[-> (z & -> & ->)]]]; auto; exfalso.
  - destruct Hs' as [H|(z' & Hz & H)]; [discriminate|]. injection H as <-.
    now apply (fmt_app_leading 3 z ("_" ++ n')).
  - destruct Hs as [H|(z' & Hz & H)]; [discriminate|]. injection H as <-.
    now apply (fmt_app_leading 3 z ("_" ++ n)).
Qed.

(** keys of plain names differ as files when they differ as cache keys *)
Lemma no_slash_fmt w z : (0 <= z)%Z -> no_slash (fmt w z).
Proof. intros. eapply all_char_impl; [|apply fmt_digits; auto]. apply digit_not_slash. Qed.
Lemma no_slash_fixd w n : no_slash (fixd w n).
Proof. eapply all_char_impl; [|apply fixd_digits]. apply digit_not_slash. Qed.
Lemma no_slash_fmt_any w z : no_slash (fmt w z).
Proof.
  destruct z; cbn [fmt]; try apply no_slash_fixd. cbn. split; [discriminate|apply no_slash_fixd].
Qed.
Definition plain_idx (i : idx) : Prop := match i with IStr s => no_slash s | _ => True end.
Lemma no_slash_sample n s : no_slash n -> plain_idx s -> no_slash (sample_name n s).
Proof.
  intros Hn. destruct s as [|z|z|t]; cbn; intros Hs; auto.
  - apply all_char_app. split; [apply no_slash_fmt_any|]. cbn. split; [discriminate|exact Hn].
  - destruct (z =? 0)%Z; [exact Hn|]. apply all_char_app. split; [apply no_slash_fmt_any|]. cbn. split; [discriminate|exact Hn].
  - apply all_char_app. split; [exact Hs|]. cbn. split; [discriminate|exact Hn].
Qed.

Definition plain_key (k : key) : Prop :=
  match k with
  | KStr s => no_slash s
  | KPath s => exists d b, s = d ++ "/" ++ b
  end.
Lemma base_name_plain n u s : no_slash n -> plain_idx s -> plain_key (get_base_name n u s).
Proof.
  intros Hn Hs. destruct u as [|z|z|t]; cbn [get_base_name plain_key]; try now apply no_slash_sample.
  exists ("update" ++ fmt 5 z), (sample_name n s). cbn. reflexivity.
Qed.
Lemma plain_path_inj k k' : plain_key k -> plain_key k' -> path k = path k' -> k = k'.
Proof.
  assert (X : forall s d b, no_slash s -> s <> d ++ "/" ++ b).
  { intros s d b Hs ->. apply all_char_app in Hs. destruct Hs as [_ Hs]. cbn in Hs. now destruct Hs. }
  destruct k as [s|s], k' as [t|t]; cbn; intros H H' E; subst.
  - reflexivity.
  - destruct H' as (d & b & ->). exfalso. now apply (X _ d b H).
  - destruct H as (d & b & ->). exfalso. now apply (X _ d b H').
  - reflexivity.
Qed.
