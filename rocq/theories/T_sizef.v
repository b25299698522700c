(** T_sizef.v -- property C191: [comp_bar_trade_size_features] (finmlkit/bar/base.py) in float64 and float32 arithmetic. *)
From Verif Require Import Base M_logic M_bars M_features M_float M_float2 M_float13 S_bars S_float.
From Verif Require Import P_sort P_bars P_float P_float12 P_sizef P_sizef2.
Open Scope Q_scope.

Definition ex_sz : list Q := [1; 3; 1 # 4; 40; 2; 0; 0; 5].
Definition ex_szf : result (list size_feat) := comp_bar_size_f (fun x => x) ex_sz [1; 2; 3; 1] [-1; 4; 6; 6; 7]%Z 3.
Lemma ex_sz_pos : forall x, In x ex_sz -> 0 <= x.
Proof. intros x Hx. repeat (destruct Hx as [<-|Hx]; [discriminate|]). destruct Hx. Qed.
Lemma ex_sz_fl : forall x, In x ex_sz -> fl 53 x.
Proof.
  intros x Hx. repeat (destruct Hx as [<-|Hx]; [first [exists 1%Z, (-2)%Z; split; reflexivity|eexists _, 0%Z; split; [|symmetry; apply Qmult_1_r]; reflexivity]|]). destruct Hx.
Qed.
Lemma size_nth log1p amounts theta closes mult zs k z : comp_bar_size_f log1p amounts theta closes mult = Ok zs -> nth_error zs k = Some z ->
  z = bar_size_f log1p amounts (nth k theta 0) mult (nth k closes 0%Z) (nth (S k) closes 0%Z).
Proof.
  intros E Hk. unfold comp_bar_size_f in E. destruct (negb _); [discriminate|]. injection E as <-. apply nth_error_map_seq in Hk. now destruct Hk.
Qed.

(** One row per bar, an error when theta does not match; NaN throughout for an empty bar or theta = 0, NaN share and Gini without volume. *)
Theorem C191_nan : forall log1p amounts theta closes mult,
  ((Z.of_nat (length theta) <> Z.of_nat (length closes) - 1)%Z -> comp_bar_size_f log1p amounts theta closes mult = Raise ValueError) /\
  ((Z.of_nat (length theta) = Z.of_nat (length closes) - 1)%Z -> exists zs, comp_bar_size_f log1p amounts theta closes mult = Ok zs /\ length zs = length theta /\
    forall k z, nth_error zs k = Some z -> let s := nth k closes 0%Z in let e := nth (S k) closes 0%Z in
      ((e <= s)%Z \/ nth k theta 0 == 0 -> z = mkSize None None None None) /\
      (0 < nth k theta 0 -> 0 < mult -> (forall x, In x amounts -> 0 <= x) -> (-1 <= s < e)%Z -> (e < Z.of_nat (length amounts))%Z ->
       bsum (at_ amounts) s e == 0 -> z_mean z <> None /\ z_p95 z <> None /\ z_block z = None /\ z_gini z = None)).
Proof.
  intros. split; intro L.
  - unfold comp_bar_size_f. destruct (Z.eqb_spec (Z.of_nat (length theta)) (Z.of_nat (length closes) - 1)); [contradiction|reflexivity].
  - destruct (comp_bar_size_f log1p amounts theta closes mult) as [zs|x] eqn:E.
    + exists zs. split; [reflexivity|]. split.
      * unfold comp_bar_size_f in E. destruct (negb _); [discriminate|]. injection E as <-. rewrite map_length, seq_length. lia.
      * intros k z Hk s e. pose proof (size_nth _ _ _ _ _ _ _ _ E Hk) as Ez. subst z. split.
        -- intro K. unfold bar_size_f. fold s e. destruct (Z.ltb_spec e (s + 1)); [reflexivity|]. destruct (Qeqb_spec (nth k theta 0) 0) as [|J]; [reflexivity|]. destruct K; [lia|contradiction].
        -- intros H1 H2 H3 H4 H5 V0. fold s e. destruct (mean_in log1p amounts (nth k theta 0) mult s e H1 H2 H3 H4 H5) as [y [M _]].
           destruct (zero_in log1p amounts (nth k theta 0) mult s e H1 H3 H4 H5 V0) as [Z1 Z2]. rewrite M. split; [discriminate|]. split; [|auto].
           rewrite (bar_eq log1p amounts (nth k theta 0) mult s e) by auto. cbv zeta. destruct (Qeqb _ 0); discriminate.
    + exfalso. unfold comp_bar_size_f in E. destruct (Z.eqb_spec (Z.of_nat (length theta)) (Z.of_nat (length closes) - 1)); [discriminate|contradiction].
Qed.
Example C191_nan_example : exists a b c d, ex_szf = Ok [a; b; c; d] /\ c = mkSize None None None None /\ z_block b = None /\ z_mean b <> None /\ z_gini d = Some 0.
Proof. do 4 eexists. split; [vm_compute; reflexivity|]. repeat split; vm_compute; congruence. Qed.

(** Mean size: the float32 rounding of log1p of mean / (theta * mult), the argument off by at most n + 4 roundings for n trades. *)
Theorem C191_mean : forall log1p amounts theta closes mult zs k z,
  comp_bar_size_f log1p amounts theta closes mult = Ok zs -> nth_error zs k = Some z ->
  let s := nth k closes 0%Z in let e := nth (S k) closes 0%Z in let th := nth k theta 0 in
  0 < th -> 0 < mult -> (forall x, In x amounts -> 0 <= x) -> (-1 <= s < e)%Z -> (e < Z.of_nat (length amounts))%Z ->
  exists y, z_mean z = Some (r24 (log1p y)) /\ within u53 (Z.to_nat (e - s) + 4) y (bsum (at_ amounts) s e / inject_Z (e - s) / (th * mult)).
Proof. intros. rewrite (size_nth _ _ _ _ _ _ _ _ H H0). now apply mean_in. Qed.
Example C191_mean_example : exists zs z m, ex_szf = Ok zs /\ nth_error zs 0 = Some z /\ z_mean z = Some m /\ Qabs (m - (185 # 60)) <= 1 # 1000000 /\ (forall x, In x ex_sz -> 0 <= x).
Proof. do 3 eexists. split; [vm_compute; reflexivity|]. split; [reflexivity|]. split; [reflexivity|]. split; [vm_compute; discriminate|exact ex_sz_pos]. Qed.

(** 95th percentile: the value interpolated between two neighbouring order statistics at a position that has the exact whole part and
    is off by at most 3 u53 n; up to five roundings.  No interpolation and three roundings when the position is a whole number. *)
Theorem C191_p95 : forall log1p amounts theta closes mult zs k z,
  comp_bar_size_f log1p amounts theta closes mult = Ok zs -> nth_error zs k = Some z ->
  let s := nth k closes 0%Z in let e := nth (S k) closes 0%Z in let th := nth k theta 0 in
  0 < th -> 0 < mult -> (forall x, In x amounts -> 0 <= x) -> (-1 <= s < e)%Z -> (e < Z.of_nat (length amounts))%Z -> (e - s <= 2 ^ 40)%Z ->
  forall srt, Permutation (map (at_ amounts) (zrange (s + 1) (e + 1))) srt -> ascQ srt ->
  let pos := inject_Z (e - s - 1) * (95 # 100) in
  exists y i m, z_p95 z = Some (r24 (log1p y)) /\ (Z.of_nat i < e - s)%Z /\ 0 <= m /\ m < 1 /\
    Qnat i <= pos < Qnat i + 1 /\ Qabs (Qnat i + m - pos) <= 3 * u53 * inject_Z (e - s) /\
    within u53 5 y ((nth i srt 0 * (1 - m) + nth (Nat.min (S i) (Z.to_nat (e - s - 1))) srt 0 * m) / (th * mult)) /\
    (((e - s - 1) mod 20 = 0)%Z -> (forall x, In x amounts -> fl 53 x) -> within u53 3 y (nth i srt 0 / (th * mult))).
Proof. intros log1p amounts theta closes mult zs k z E Hk s e th H1 H2 H3 H4 H5 H6 srt H7 H8 pos. rewrite (size_nth _ _ _ _ _ _ _ _ E Hk). now apply p95_in. Qed.
Example C191_p95_example : exists zs z p, ex_szf = Ok zs /\ nth_error zs 0 = Some z /\ z_p95 z = Some p /\
  Qabs (p - (3 * (2 # 10) + 40 * (8 # 10)) / 3) <= 1 # 100000 /\ Permutation [1; 3; 1 # 4; 40; 2] [1 # 4; 1; 2; 3; 40].
Proof.
  do 3 eexists. split; [vm_compute; reflexivity|]. split; [reflexivity|]. split; [reflexivity|]. split; [vm_compute; discriminate|].
  apply (Permutation_trans (l' := [1 # 4; 1; 3; 40; 2])); [apply (Permutation_app_tail [40; 2] (Permutation_app_comm [1; 3] [1 # 4]))|].
  apply (Permutation_app_head [1 # 4; 1]), (Permutation_app_comm [3; 40] [2]).
Qed.
(** The interpolation does not keep equal sizes: the 95th percentile of three trades of 2.9 is larger than each of them. *)
Theorem C191_p95_refuted : exists x, fl 53 x /\ x < percentile_f [x; x; x] 95.
Proof. exists (r53 (29 # 10)). split; [apply rnd_fl; lia|]. vm_compute. reflexivity. Qed.

(** Block share: between 0 and 1, a float32 rounding of a quotient off by at most 3n + 1 roundings; on float64 sizes the blocks are
    among the trades above theta * mult and include those above it by more than one rounding. *)
Theorem C191_block : forall log1p amounts theta closes mult zs k z,
  comp_bar_size_f log1p amounts theta closes mult = Ok zs -> nth_error zs k = Some z ->
  let s := nth k closes 0%Z in let e := nth (S k) closes 0%Z in let th := nth k theta 0 in
  0 < th -> 0 < mult -> (forall x, In x amounts -> 0 <= x) -> (-1 <= s < e)%Z -> (e < Z.of_nat (length amounts))%Z ->
  let V := bsum (at_ amounts) s e in
  let B c := bsum (fun j => if Qltb c (at_ amounts j) then at_ amounts j else 0) s e in
  0 < V ->
  exists b y, z_block z = Some b /\ b = r24 y /\ 0 <= b <= 1 /\ within u53 (3 * Z.to_nat (e - s) + 1) y (B (r53 (th * mult)) / V) /\
    ((forall x, In x amounts -> fl 53 x) -> B (th * mult * (1 + u53)) <= B (r53 (th * mult)) <= B (th * mult)).
Proof.
  intros log1p amounts theta closes mult zs k z E Hk s e th H1 H2 H3 H4 H5 V B HV. rewrite (size_nth _ _ _ _ _ _ _ _ E Hk). fold s e th.
  destruct (block_in log1p amounts th mult s e H1 H3 H4 H5 HV) as [b [y [P1 [P2 [P3 P4]]]]]. exists b, y. repeat (split; [assumption|]). now apply B_float.
Qed.
Example C191_block_example : exists zs z b, ex_szf = Ok zs /\ nth_error zs 0 = Some z /\ z_block z = Some b /\ Qabs (b - 40 / (185 # 4)) <= 1 # 1000000 /\ ~ b == 0 /\
  (forall x, In x ex_sz -> 0 <= x) /\ (forall x, In x ex_sz -> fl 53 x).
Proof.
  do 3 eexists. split; [vm_compute; reflexivity|]. split; [reflexivity|]. split; [reflexivity|]. split; [vm_compute; discriminate|]. split; [vm_compute; discriminate|].
  split; [exact ex_sz_pos|exact ex_sz_fl].
Qed.
(** A trade above theta * mult is not always a block: the product can round up to it. *)
Theorem C191_block_refuted : exists x th z, fl 53 x /\ fl 53 th /\ 0 < th /\ th * 3 < x /\
  comp_bar_size_f (fun x => x) [x] [th] [-1; 0]%Z 3 = Ok [z] /\ exists b, z_block z = Some b /\ b == 0.
Proof.
  exists (r53 (r53 (1 # 10) * 3)), (r53 (1 # 10)). eexists. split; [apply rnd_fl; lia|]. split; [apply rnd_fl; lia|]. split; [vm_compute; reflexivity|]. split; [vm_compute; reflexivity|].
  split; [vm_compute; reflexivity|]. eexists. split; [reflexivity|]. vm_compute. reflexivity.
Qed.

(** Size Gini: 0 for one trade, else the float32 rounding of the complement of a sum of squared shares off by at most 5n + 3 roundings. *)
Theorem C191_gini : forall log1p amounts theta closes mult zs k z,
  comp_bar_size_f log1p amounts theta closes mult = Ok zs -> nth_error zs k = Some z ->
  let s := nth k closes 0%Z in let e := nth (S k) closes 0%Z in let th := nth k theta 0 in
  0 < th -> 0 < mult -> (forall x, In x amounts -> 0 <= x) -> (-1 <= s < e)%Z -> (e < Z.of_nat (length amounts))%Z ->
  let V := bsum (at_ amounts) s e in
  0 < V ->
  exists g, z_gini z = Some g /\ ((e = s + 1)%Z -> g == 0) /\
    ((s + 1 < e)%Z -> exists G, g = r24 (r53 (1 - G)) /\ within u53 (5 * Z.to_nat (e - s) + 3) G (bsum (fun j => (at_ amounts j / V) * (at_ amounts j / V)) s e)).
Proof. intros log1p amounts theta closes mult zs k z E Hk s e th H1 H2 H3 H4 H5 V HV. rewrite (size_nth _ _ _ _ _ _ _ _ E Hk). now apply gini_in. Qed.
Example C191_gini_example : exists zs z g, ex_szf = Ok zs /\ nth_error zs 0 = Some z /\ z_gini z = Some g /\
  Qabs (g - (1 - (1 + 9 + (1 # 16) + 1600 + 4) / ((185 # 4) * (185 # 4)))) <= 1 # 1000000 /\ ~ g == 0.
Proof. do 3 eexists. split; [vm_compute; reflexivity|]. split; [reflexivity|]. split; [reflexivity|]. split; vm_compute; discriminate. Qed.
(** Two trades can have the Gini coefficient 0 of a single one. *)
Theorem C191_gini_refuted : exists x y z g, fl 53 x /\ fl 53 y /\ 0 < x /\ 0 < y /\
  comp_bar_size_f (fun x => x) [x; y] [1] [-1; 1]%Z 3 = Ok [z] /\ z_gini z = Some g /\ g == 0.
Proof.
  exists (inject_Z (2 ^ 53)), 1. do 2 eexists. split; [exists 1%Z, 53%Z; split; reflexivity|]. split; [exists 1%Z, 0%Z; split; reflexivity|]. split; [reflexivity|]. split; [reflexivity|].
  split; [vm_compute; reflexivity|]. split; [reflexivity|]. vm_compute. reflexivity.
Qed.

Print Assumptions C191_nan.
Print Assumptions C191_mean.
Print Assumptions C191_p95.
Print Assumptions C191_p95_refuted.
Print Assumptions C191_block.
Print Assumptions C191_block_refuted.
Print Assumptions C191_gini.
Print Assumptions C191_gini_refuted.
