(** T_units.v -- property C161: what a change of units does to bars.

    Prices in a unit [c] times smaller and amounts in a unit [d] times smaller: [scl c prices prices'],
    [scl d amounts amounts'] (S_units.v). *)
From Coq Require Import Qpower Qfield.
From Verif Require Import Base M_logic M_bars M_footprint M_features M_volat M_volume M_tbm M_float M_float2 S_units S_unitbars
  P_units P_units2 P_units3 P_units4 P_units5 P_units6 P_float P_float9.
Open Scope Q_scope.

(* ---------------------------------------------------------------- helpers for the examples *)
Definition in_unit (c : Q) (l : list Q) : list Q := map (Qmult c) l.
Lemma in_unit_scl c l : scl c l (in_unit c l).
Proof. induction l; cbn [in_unit map]; constructor; auto. reflexivity. Qed.
Definition oin_unit (c : Q) (l : list (option Q)) : list (option Q) := map (option_map (Qmult c)) l.
Lemma oin_unit_oscl c l : oscl c l (oin_unit c l).
Proof. induction l as [|[x|] l IH]; cbn [oin_unit map option_map]; constructor; auto; reflexivity. Qed.
Definition cube (x : Q) : Q := x * x * x.
Lemma cube_respects : respects cube.
Proof. intros x y E. unfold cube. now rewrite E. Qed.
(** The number of binary digits behaves as a logarithm for units that are powers of two. *)
Definition log2f (x : Q) : Q := inject_Z (ilog x).
Lemma log2f_like e : log_like log2f (two e).
Proof.
  assert (L : forall x y, 0 < x -> sc (two e) x y -> ilog y = (ilog x + e)%Z).
  { intros x y Px H. unfold sc in H. apply ilog_unique. assert (N : ~ x == 0) by lra. pose proof (ilog_spec x N) as [A B]. pose proof (two_pos e) as Pe.
    rewrite (Qabs_wd y (x * two e)) by (rewrite H; ring). rewrite Qabs_scale by auto.
    replace (ilog x + e + 1)%Z with (ilog x + 1 + e)%Z by lia. rewrite (two_plus (ilog x) e), (two_plus (ilog x + 1) e). nra. }
  intros x x' y y' Px Py Hx Hy. unfold log2f. rewrite (L x x' Px Hx), (L y y' Py Hy), !inject_Z_plus. ring.
Qed.

(* ---------------------------------------------------------------- C161 *)

(** C161: volume bars close at the same trades when amounts and threshold change their unit. *)
Theorem C161_volume d v v' t t' : 0 < d -> scl d v v' -> sc d t t' -> volume_bar_indexer v' t' = volume_bar_indexer v t.
Proof. apply volume_units. Qed.
(** Amounts in thousandths. *)
Example C161_volume_example : volume_bar_indexer (in_unit 1000 [1; 2; 1; 3; 5; 1]) 4000 = [0; 2; 4]%nat /\ volume_bar_indexer [1; 2; 1; 3; 5; 1] 4 = [0; 2; 4]%nat.
Proof.
  assert (E : volume_bar_indexer (in_unit 1000 [1; 2; 1; 3; 5; 1]) 4000 = volume_bar_indexer [1; 2; 1; 3; 5; 1] 4)
    by (apply (C161_volume 1000); [reflexivity|apply in_unit_scl|reflexivity]).
  split; [rewrite E|]; vm_compute; reflexivity.
Qed.
(** C161: dollar bars likewise, with a threshold in the product of the units. *)
Theorem C161_dollar c d p p' v v' t t' : 0 < c -> 0 < d -> scl c p p' -> scl d v v' -> sc (c * d) t t' ->
  dollar_bar_indexer p' v' t' = dollar_bar_indexer p v t.
Proof. apply dollar_units. Qed.
Example C161_dollar_example : dollar_bar_indexer (in_unit 100 [10; 11; 12; 11]) (in_unit (1 # 2) [1; 2; 1; 3]) 1500 = dollar_bar_indexer [10; 11; 12; 11] [1; 2; 1; 3] 30
  /\ dollar_bar_indexer [10; 11; 12; 11] [1; 2; 1; 3] 30 = [0; 1; 3]%nat.
Proof. split; [apply (C161_dollar 100 (1 # 2)); try reflexivity; apply in_unit_scl|vm_compute; reflexivity]. Qed.
(** C161: CUSUM bars do not depend on the unit of the prices at all. *)
Theorem C161_cusum ln c ts p p' sigma fl m : respects ln -> 0 < c -> scl c p p' ->
  cusum_bar_indexer ln ts p' sigma fl m = cusum_bar_indexer ln ts p sigma fl m.
Proof. apply cusum_units. Qed.
Example C161_cusum_example : cusum_bar_indexer (fun x => cube x - 1) [1; 2; 3; 4; 5]%Z (in_unit 100 [10; 11; 12; 10; 9]) (repeat (Some (1 # 2)) 5) (1 # 10) 1
  = cusum_bar_indexer (fun x => cube x - 1) [1; 2; 3; 4; 5]%Z [10; 11; 12; 10; 9] (repeat (Some (1 # 2)) 5) (1 # 10) 1
  /\ cusum_bar_indexer (fun x => cube x - 1) [1; 2; 3; 4; 5]%Z [10; 11; 12; 10; 9] (repeat (Some (1 # 2)) 5) (1 # 10) 1 = [0; 2; 4]%nat.
Proof.
  split; [|vm_compute; reflexivity]. apply (C161_cusum _ 100); [|reflexivity|apply in_unit_scl]. intros x y E. rewrite (cube_respects x y E). reflexivity.
Qed.
(** C161: prices and VWAP of the bars change with the price unit, volume and median size with the
    unit of the amounts, the number of trades not at all; calls fail for the same inputs. *)
Theorem C161_ohlcv c d p p' v v' closes : 0 < c -> 0 < d -> scl c p p' -> scl d v v' ->
  both (Forall2 (same_bar c d)) (comp_bar_ohlcv p v closes) (comp_bar_ohlcv p' v' closes).
Proof. apply ohlcv_units. Qed.
Example C161_ohlcv_example : exists b b', comp_bar_ohlcv [10; 12; 11; 9] [1; 2; 4; 2] [0; 2; 3]%Z = Ok b /\
  comp_bar_ohlcv (in_unit 100 [10; 12; 11; 9]) (in_unit (1 # 2) [1; 2; 4; 2]) [0; 2; 3]%Z = Ok b' /\ Forall2 (same_bar 100 (1 # 2)) b b' /\ length b = 2%nat.
Proof.
  pose proof (C161_ohlcv 100 (1 # 2) [10; 12; 11; 9] _ [1; 2; 4; 2] _ [0; 2; 3]%Z ltac:(reflexivity) ltac:(reflexivity) (in_unit_scl _ _) (in_unit_scl _ _)) as H.
  eexists. eexists. split; [reflexivity|]. split; [reflexivity|]. split; [exact H|reflexivity].
Qed.
(** C161: directional sums and spreads change with their units. *)
Theorem C161_flow c d p p' v v' sides closes : 0 < c -> 0 < d -> scl c p p' -> scl d v v' ->
  Forall2 (same_flow c d) (comp_bar_directional p v sides closes) (comp_bar_directional p' v' sides closes).
Proof. apply directional_units. Qed.
Example C161_flow_example : Forall2 (same_flow 100 (1 # 2)) (comp_bar_directional [10; 12; 11; 9] [1; 2; 4; 2] [1; -1; 1; -1]%Z [0; 2; 3]%Z)
  (comp_bar_directional (in_unit 100 [10; 12; 11; 9]) (in_unit (1 # 2) [1; 2; 4; 2]) [1; -1; 1; -1]%Z [0; 2; 3]%Z)
  /\ map f_vol_buy (comp_bar_directional [10; 12; 11; 9] [1; 2; 4; 2] [1; -1; 1; -1]%Z [0; 2; 3]%Z) = [4; 0].
Proof. split; [apply C161_flow; try reflexivity; apply in_unit_scl|vm_compute; reflexivity]. Qed.
(** C161: the running extremes of volume and dollars start from 1e9 and -1e9 in whatever unit, so
    they do not change with the unit: 2e9 units bought give the minimum 1e9, and 2e6 thousands give
    the minimum 2e6. *)
Theorem C161_extremes_refuted : exists c d p p' v v' sides closes, 0 < c /\ 0 < d /\ scl c p p' /\ scl d v v' /\
  ~ Forall2 (fun f g => sc d (f_cv_min f) (f_cv_min g)) (comp_bar_directional p v sides closes) (comp_bar_directional p' v' sides closes).
Proof.
  exists 1, (1 # 1000), [10; 10], (in_unit 1 [10; 10]), [1; 2000000000], (in_unit (1 # 1000) [1; 2000000000]), [1; 1]%Z, [0; 1]%Z.
  split; [reflexivity|]. split; [reflexivity|]. split; [apply in_unit_scl|]. split; [apply in_unit_scl|].
  intro H. vm_compute in H. inversion H as [|? ? ? ? A]. discriminate A.
Qed.
(** C161: extremes strictly inside the start values in both units do change with the unit. *)
Theorem C161_extremes c d p p' v v' sides closes k f g : 0 < c -> 0 < d -> scl c p p' -> scl d v v' ->
  nth_error (comp_bar_directional p v sides closes) k = Some f -> nth_error (comp_bar_directional p' v' sides closes) k = Some g ->
  (f_cv_min f < 1000000000 -> f_cv_min g < 1000000000 -> sc d (f_cv_min f) (f_cv_min g)) /\
  (-1000000000 < f_cv_max f -> -1000000000 < f_cv_max g -> sc d (f_cv_max f) (f_cv_max g)) /\
  (f_cd_min f < 1000000000 -> f_cd_min g < 1000000000 -> sc (c * d) (f_cd_min f) (f_cd_min g)) /\
  (-1000000000 < f_cd_max f -> -1000000000 < f_cd_max g -> sc (c * d) (f_cd_max f) (f_cd_max g)).
Proof.
  intros Hc Hd Hp Hv E F. pose proof (extremes_units c d p p' v v' sides closes Hc Hd Hp Hv) as H. revert k E F.
  induction H as [|x y l m (R1 & R2 & R3 & R4) H IH]; intros [|k] E F; cbn [nth_error] in *; try discriminate; [|eauto].
  injection E as <-. injection F as <-. repeat split; intros; [eapply Rmin_use|eapply Rmax_use|eapply Rmin_use|eapply Rmax_use]; eauto.
Qed.
Example C161_extremes_example : exists f g, nth_error (comp_bar_directional [10; 12; 11; 9] [1; 2; 4; 2] [1; -1; 1; -1]%Z [0; 3]%Z) 0 = Some f /\
  nth_error (comp_bar_directional (in_unit 100 [10; 12; 11; 9]) (in_unit (1 # 2) [1; 2; 4; 2]) [1; -1; 1; -1]%Z [0; 3]%Z) 0 = Some g /\
  f_cv_min f == -2 /\ f_cv_max f == 2 /\ sc (1 # 2) (f_cv_min f) (f_cv_min g) /\ sc (100 * (1 # 2)) (f_cd_max f) (f_cd_max g).
Proof.
  eexists. eexists. split; [reflexivity|]. split; [reflexivity|].
  pose proof (C161_extremes 100 (1 # 2) [10; 12; 11; 9] _ [1; 2; 4; 2] _ [1; -1; 1; -1]%Z [0; 3]%Z 0 _ _ ltac:(reflexivity) ltac:(reflexivity)
    (in_unit_scl _ _) (in_unit_scl _ _) eq_refl eq_refl) as (A & _ & _ & D).
  split; [vm_compute; reflexivity|]. split; [vm_compute; reflexivity|].
  split; [apply A; vm_compute; reflexivity|apply D; vm_compute; reflexivity].
Qed.
(** C161: the trade size features do not depend on the unit of the amounts and of theta. *)
Theorem C161_sizes log1p d am am' th th' closes m : respects log1p -> 0 < d -> scl d am am' -> scl d th th' ->
  both (Forall2 same_sizes) (comp_bar_size log1p am th closes m) (comp_bar_size log1p am' th' closes m).
Proof. apply size_units. Qed.
Example C161_sizes_example : exists l l', comp_bar_size cube [1; 2; 4; 2; 3] [2; 3] [0; 2; 4]%Z 1 = Ok l /\
  comp_bar_size cube (in_unit 10 [1; 2; 4; 2; 3]) (in_unit 10 [2; 3]) [0; 2; 4]%Z 1 = Ok l' /\ Forall2 same_sizes l l' /\
  map (option_map Qred) (map z_gini l) = [Some (4 # 9); Some (12 # 25)].
Proof.
  pose proof (C161_sizes cube 10 [1; 2; 4; 2; 3] _ [2; 3] _ [0; 2; 4]%Z 1 cube_respects ltac:(reflexivity) (in_unit_scl _ _) (in_unit_scl _ _)) as H.
  eexists. eexists. split; [reflexivity|]. split; [reflexivity|]. split; [exact H|vm_compute; reflexivity].
Qed.
(** C161: the footprint of a bar with prices, low, high and tick in another unit: the same levels
    in ticks, counts, imbalance flags, run, COT level, skew and concentration, and the level volumes
    in the unit of the amounts. *)
Theorem C161_footprints c d p p' a a' closes sides tick tick' lows lows' highs highs' m : 0 < c -> 0 < d -> scl c p p' -> scl d a a' -> sc c tick tick' ->
  scl c lows lows' -> scl c highs highs' ->
  both (Forall2 (same_footprint d)) (comp_bar_footprints p a closes sides tick lows highs m) (comp_bar_footprints p' a' closes sides tick' lows' highs' m).
Proof. apply footprints_units. Qed.
Example C161_footprints_example : exists l l', comp_bar_footprints [10; 12; 11; 12] [1; 2; 4; 9] [0; 3]%Z [1; -1; 1; 1]%Z (1 # 2) [11] [12] 2 = Ok l /\
  comp_bar_footprints (in_unit 100 [10; 12; 11; 12]) (in_unit (1 # 2) [1; 2; 4; 9]) [0; 3]%Z [1; -1; 1; 1]%Z 50 (in_unit 100 [11]) (in_unit 100 [12]) 2 = Ok l' /\
  Forall2 (same_footprint (1 # 2)) l l' /\ map fp_levels l' = [[22; 23; 24]%Z].
Proof.
  pose proof (C161_footprints 100 (1 # 2) [10; 12; 11; 12] _ [1; 2; 4; 9] _ [0; 3]%Z [1; -1; 1; 1]%Z (1 # 2) 50 [11] _ [12] _ 2 ltac:(reflexivity) ltac:(reflexivity)
    (in_unit_scl _ _) (in_unit_scl _ _) ltac:(reflexivity) (in_unit_scl _ _) (in_unit_scl _ _)) as H.
  eexists. eexists. split; [vm_compute; reflexivity|]. split; [vm_compute; reflexivity|]. split; [|vm_compute; reflexivity]. vm_compute in H |- *. exact H.
Qed.

Print Assumptions C161_volume.
Print Assumptions C161_dollar.
Print Assumptions C161_cusum.
Print Assumptions C161_ohlcv.
Print Assumptions C161_flow.
Print Assumptions C161_extremes_refuted.
Print Assumptions C161_extremes.
Print Assumptions C161_sizes.
Print Assumptions C161_footprints.
