(** T_footf.v -- property C190: [comp_footprint_features] (finmlkit/bar/base.py) in float32 and float64 arithmetic. *)
From Verif Require Import Base M_logic M_bars M_footprint M_features M_float M_float11 M_float12 S_float S_footprint S_footf.
From Verif Require Import P_footprint P_float P_footf P_footf2.
Open Scope Q_scope.

Definition ex_ff : result fp_feat := comp_footprint_features_f dot24 [1000; 1001; 1002]%Z [0; 7 # 2; 80] [10; 3; 1 # 4] 3.
Lemma ex_pos (l : list Q) : forallb (fun x => Qle_bool 0 x) l = true -> forall i, 0 <= nth i l 0.
Proof.
  intros K i. destruct (nth_in_or_default i l 0) as [J|J]; [|rewrite J; apply Qle_refl]. rewrite forallb_forall in K. specialize (K _ J). now apply Qle_bool_iff.
Qed.
Lemma ex_fl24 (l : list Q) : (forall x, In x l -> exists m e, (Z.abs m < 2 ^ 24)%Z /\ x == inject_Z m * Qpower 2 e) -> forall i, fl 24 (nth i l 0).
Proof.
  intros K i. destruct (nth_in_or_default i l 0) as [J|J]; [apply (K _ J)|]. rewrite J. exists 0%Z, 0%Z. split; [reflexivity|]. reflexivity.
Qed.

(** An answer comes back exactly when there is a level; the run is the longest run of equal non-zero imbalance signs. *)
Theorem C190_run : forall dot lv bv sv mult,
  ((exists f, comp_footprint_features_f dot lv bv sv mult = Ok f) <-> lv <> []) /\
  forall f, comp_footprint_features_f dot lv bv sv mult = Ok f ->
  let n := length lv in let sgn := imb_sign (ff_bi f) (ff_si f) in
  (forall a len sg, is_run sgn n a len sg -> (Z.of_nat len <= Z.abs (ff_run f))%Z) /\
  (ff_run f <> 0%Z -> exists a, is_run sgn n a (Z.to_nat (Z.abs (ff_run f))) (Z.sgn (ff_run f)) /\
     forall b sg, is_run sgn n b (Z.to_nat (Z.abs (ff_run f))) sg -> (a <= b)%nat) /\
  (ff_run f = 0%Z <-> forall i, (i < n)%nat -> sgn i = 0%Z).
Proof.
  intros. split; [apply feat_f_total|]. intros f E n sgn. destruct (feat_f_ok _ _ _ _ _ _ E) as [_ [_ [_ [R _]]]].
  pose proof (max_run_spec (ff_bi f) (ff_si f) n) as K. cbv zeta in K. fold n in R. rewrite <- R in K. exact K.
Qed.
Example C190_run_example : exists f, ex_ff = Ok f /\ ff_bi f = [false; false; true]%bool /\ ff_si f = [false; false; false]%bool /\ ff_run f = 1%Z.
Proof. eexists. split; [vm_compute; reflexivity|]. repeat split; vm_compute; reflexivity. Qed.

(** Imbalance flags on float32 volumes: a flag is only set where the exact comparison holds; it is set wherever the comparison
    holds by more than one rounding of the product, and wherever it holds at all when the multiplier has at most 29 bits. *)
Theorem C190_flags : forall dot lv bv sv mult f, comp_footprint_features_f dot lv bv sv mult = Ok f ->
  (forall i, fl 24 (nth i bv 0)) -> (forall i, fl 24 (nth i sv 0)) ->
  let n := length lv in
  length (ff_bi f) = n /\ length (ff_si f) = n /\
  (forall i, (i < n)%nat -> nth i (ff_bi f) false = true -> (1 <= i)%nat /\ nth (i - 1) sv 0 * mult < nth i bv 0) /\
  (forall i, (i < n)%nat -> nth i (ff_si f) false = true -> (S i < n)%nat /\ nth (S i) bv 0 * mult < nth i sv 0) /\
  (forall i, (1 <= i < n)%nat -> nth (i - 1) sv 0 * mult + u53 * Qabs (nth (i - 1) sv 0 * mult) < nth i bv 0 -> nth i (ff_bi f) false = true) /\
  (forall i, (S i < n)%nat -> nth (S i) bv 0 * mult + u53 * Qabs (nth (S i) bv 0 * mult) < nth i sv 0 -> nth i (ff_si f) false = true) /\
  (fl 29 mult ->
   (forall i, (1 <= i < n)%nat -> nth (i - 1) sv 0 * mult < nth i bv 0 -> nth i (ff_bi f) false = true) /\
   (forall i, (S i < n)%nat -> nth (S i) bv 0 * mult < nth i sv 0 -> nth i (ff_si f) false = true)).
Proof. exact flags_f. Qed.
Example C190_flags_example : exists f, comp_footprint_features_f dot24 [10; 11]%Z [1; 16777215] [5592404; 0] 3 = Ok f /\ ff_bi f = [false; true]%bool /\
  (forall i, fl 24 (nth i [1; 16777215] 0)) /\ (forall i, fl 24 (nth i [5592404; 0] 0)) /\ fl 29 3.
Proof.
  eexists. split; [vm_compute; reflexivity|]. split; [reflexivity|]. split; [|split].
  - apply ex_fl24. intros x [<-|[<-|[]]]; [exists 1%Z, 0%Z|exists 16777215%Z, 0%Z]; split; reflexivity.
  - apply ex_fl24. intros x [<-|[<-|[]]]; [exists 5592404%Z, 0%Z|exists 0%Z, 0%Z]; split; reflexivity.
  - exists 3%Z, 0%Z. split; reflexivity.
Qed.
(** With a multiplier of 53 bits the product can round up to the volume it is compared with: the flag is lost. *)
Theorem C190_flags_refuted : exists mult, fl 53 mult /\ (0 < mult)%Q /\ 3 * mult < 1 /\
  forall dot f, comp_footprint_features_f dot [10; 11]%Z [0; 1] [3; 0] mult = Ok f -> nth 1 (ff_bi f) false = false.
Proof.
  exists (r53 (1 # 3)). split; [exists 6004799503160661%Z, (-54)%Z; split; vm_compute; reflexivity|]. split; [vm_compute; reflexivity|]. split; [vm_compute; reflexivity|].
  intros dot f E. destruct (feat_f_ok _ _ _ _ _ _ E) as [_ [B _]]. rewrite B. vm_compute. reflexivity.
Qed.

(** The centre-of-trades level is the first with the largest rounded total; its exact total falls short of no other by more than two
    float32 roundings. *)
Theorem C190_cot : forall dot lv bv sv mult f, comp_footprint_features_f dot lv bv sv mult = Ok f ->
  (forall i, 0 <= nth i bv 0) -> (forall i, 0 <= nth i sv 0) ->
  let n := length lv in let t i := nth i bv 0 + nth i sv 0 in
  exists c, (c < n)%nat /\ ff_cot f = nth c lv 0%Z /\ (forall i, (i < n)%nat -> r24 (t i) <= r24 (t c)) /\ (forall i, (i < c)%nat -> r24 (t i) < r24 (t c)) /\
    (forall i, (i < n)%nat -> (1 - u24) * t i <= (1 + u24) * t c).
Proof. exact cot_f. Qed.
Example C190_cot_example : exists f, ex_ff = Ok f /\ ff_cot f = 1002%Z /\ (forall i, 0 <= nth i [0; 7 # 2; 80] 0) /\ (forall i, 0 <= nth i [10; 3; 1 # 4] 0).
Proof. eexists. split; [vm_compute; reflexivity|]. split; [reflexivity|]. split; apply ex_pos; reflexivity. Qed.
(** The level with the strictly largest exact total can lose against an earlier one. *)
Theorem C190_cot_refuted : exists bv sv, (forall i, fl 24 (nth i bv 0)) /\ (forall i, fl 24 (nth i sv 0)) /\
  nth 0 bv 0 + nth 0 sv 0 < nth 1 bv 0 + nth 1 sv 0 /\
  forall dot f, comp_footprint_features_f dot [10; 11]%Z bv sv 3 = Ok f -> ff_cot f = 10%Z.
Proof.
  exists [16777216; 16777216], [0; 1]. split; [|split; [|split]].
  - apply ex_fl24. intros x [<-|[<-|[]]]; exists 1%Z, 24%Z; split; reflexivity.
  - apply ex_fl24. intros x [<-|[<-|[]]]; [exists 0%Z, 0%Z|exists 1%Z, 0%Z]; split; reflexivity.
  - vm_compute. reflexivity.
  - intros dot f E. destruct (feat_f_ok _ _ _ _ _ _ E) as [_ [_ [_ [_ [C _]]]]]. rewrite C. vm_compute. reflexivity.
Qed.

(** The Gini coefficient is the rounded complement of a sum of squared shares that is off by at most 5n+9 float32 roundings; skew and
    Gini are zero without volume. *)
Theorem C190_gini : forall dot lv bv sv mult f, comp_footprint_features_f dot lv bv sv mult = Ok f ->
  (forall i, 0 <= nth i bv 0) -> (forall i, 0 <= nth i sv 0) ->
  let n := length lv in let t i := nth i bv 0 + nth i sv 0 in let T := qsum (map t (seq 0 n)) in
  (T <= 0 -> ff_gini f = 0 /\ ff_skew f = 0) /\
  (0 < T -> exists g, within u24 (5 * n + 9) g (qsum (map (fun i => (t i / T) * (t i / T)) (seq 0 n))) /\ ff_gini f = r53 (1 - g)).
Proof. exact gini_f. Qed.
Example C190_gini_example : exists f, ex_ff = Ok f /\ (forall i, 0 <= nth i [0; 7 # 2; 80] 0) /\ (forall i, 0 <= nth i [10; 3; 1 # 4] 0) /\
  Qabs (ff_gini f - (1 - (10 * 10 + (13 # 2) * (13 # 2) + (321 # 4) * (321 # 4)) / ((387 # 4) * (387 # 4)))) <= 1 # 10000000 /\ ~ ff_gini f == 0.
Proof.
  eexists. split; [vm_compute; reflexivity|]. split; [apply ex_pos; reflexivity|]. split; [apply ex_pos; reflexivity|]. split; vm_compute; discriminate.
Qed.
(** Two levels with volume on both can get the Gini coefficient 0 of a single level. *)
Theorem C190_gini_refuted : exists bv sv, (forall i, fl 24 (nth i bv 0)) /\ (forall i, fl 24 (nth i sv 0)) /\ 0 < nth 0 bv 0 /\ 0 < nth 1 sv 0 /\
  forall dot f, comp_footprint_features_f dot [10; 11]%Z bv sv 3 = Ok f -> ff_gini f == 0.
Proof.
  exists [16777216; 0], [0; 1]. split; [|split; [|split; [|split]]].
  - apply ex_fl24. intros x [<-|[<-|[]]]; [exists 1%Z, 24%Z|exists 0%Z, 0%Z]; split; reflexivity.
  - apply ex_fl24. intros x [<-|[<-|[]]]; [exists 0%Z, 0%Z|exists 1%Z, 0%Z]; split; reflexivity.
  - reflexivity.
  - reflexivity.
  - intros dot f E. destruct (feat_f_ok _ _ _ _ _ _ E) as [_ [_ [_ [_ [_ [_ G]]]]]]. rewrite G. vm_compute. reflexivity.
Qed.

(** The exact skew is 0 (C21_profile); the float one stays within 9n+29 float32 roundings of the largest level number. *)
Theorem C190_skew : forall dot lv bv sv mult f M, dot_ok dot -> comp_footprint_features_f dot lv bv sv mult = Ok f ->
  (forall i, 0 <= nth i bv 0) -> (forall i, 0 <= nth i sv 0) ->
  (forall i, (i < length lv)%nat -> 0 <= inject_Z (nth i lv 0%Z) <= M) -> Qnat (length lv + 8) * u24 <= 1 # 16 ->
  Qabs (ff_skew f) <= Qnat (9 * length lv + 29) * u24 * M.
Proof. exact skew_f. Qed.
Example C190_skew_example : dot_ok dot24 /\ exists f, ex_ff = Ok f /\ Qabs (ff_skew f) <= Qnat (9 * 3 + 29) * u24 * 1002 /\ ~ Qnat (9 * 3 + 29) * u24 * 1002 == 0.
Proof. split; [exact dot24_ok|]. eexists. split; [vm_compute; reflexivity|]. split; vm_compute; discriminate. Qed.
(** One level, hence no spread at all, and a skew of 1/16 of a tick. *)
Theorem C190_skew_refuted : exists level volume f, fl 24 volume /\ 0 < volume /\
  comp_footprint_features_f dot24 [level] [volume] [0] 3 = Ok f /\ ff_skew f == - (1 # 16).
Proof.
  exists 1000003%Z, 17. eexists. split; [exists 17%Z, 0%Z; split; reflexivity|]. split; [reflexivity|]. split; [vm_compute; reflexivity|]. vm_compute. reflexivity.
Qed.

Print Assumptions C190_run.
Print Assumptions C190_flags.
Print Assumptions C190_flags_refuted.
Print Assumptions C190_cot.
Print Assumptions C190_cot_refuted.
Print Assumptions C190_gini.
Print Assumptions C190_gini_refuted.
Print Assumptions C190_skew.
Print Assumptions C190_skew_refuted.
