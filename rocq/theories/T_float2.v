(** T_float2.v -- property theorems about footprints and merged trades in float32 cells. *)
From Verif Require Import Base M_logic S_logic M_bars S_bars P_sort P_bars M_footprint S_footprint M_trades M_float S_float
  P_features P_float P_float2 P_float3 P_float5 P_float6 P_float8.
Open Scope Q_scope.

(** * C141  Footprint volumes in float32 cells *)
Theorem C141_levels : forall prices amounts sides tick lo hi s e st, 0 < tick -> (-1 <= s <= e)%Z ->
  (forall x, In x amounts -> 0 <= x) ->
  bar_levels_f prices amounts sides tick lo hi s e = Ok st ->
  let lev j := level_f tick (at_ prices j) in
  let n := Z.to_nat (level_f tick hi - level_f tick lo + 1) in
  length (lv_bv st) = n /\ length (lv_sv st) = n /\ length (lv_bt st) = n /\ length (lv_st st) = n /\
  (forall j, (s < j <= e)%Z -> (level_f tick lo <= lev j <= level_f tick hi)%Z) /\
  forall i, (i < n)%nat ->
    let l := (level_f tick lo + Z.of_nat i)%Z in
    nth i (lv_bt st) 0%Z = Z.of_nat (level_count sides lev 1 l s e) /\
    nth i (lv_st st) 0%Z = Z.of_nat (level_count sides lev (-1) l s e) /\
    within ucell (level_count sides lev 1 l s e) (nth i (lv_bv st) 0) (level_sum sides lev 1 l (at_ amounts) s e) /\
    within ucell (level_count sides lev (-1) l s e) (nth i (lv_sv st) 0) (level_sum sides lev (-1) l (at_ amounts) s e).
Proof. intros prices amounts sides tick lo hi s e st Ht Hs. exact (levels_f_spec prices amounts sides tick lo hi s e Hs st Ht). Qed.
Theorem C141_integers : forall prices amounts sides tick lo hi s e st g, 0 < tick -> (-1 <= s <= e)%Z ->
  (forall x, In x amounts -> 0 <= x /\ grid g x) ->
  bar_levels_f prices amounts sides tick lo hi s e = Ok st ->
  let lev j := level_f tick (at_ prices j) in
  forall i, (i < Z.to_nat (level_f tick hi - level_f tick lo + 1))%nat ->
    let l := (level_f tick lo + Z.of_nat i)%Z in
    (level_sum sides lev 1 l (at_ amounts) s e <= Qpower 2 (24 + g) ->
       nth i (lv_bv st) 0 == level_sum sides lev 1 l (at_ amounts) s e) /\
    (level_sum sides lev (-1) l (at_ amounts) s e <= Qpower 2 (24 + g) ->
       nth i (lv_sv st) 0 == level_sum sides lev (-1) l (at_ amounts) s e).
Proof. intros prices amounts sides tick lo hi s e st g Ht Hs. exact (levels_f_grid prices amounts sides tick lo hi s e Hs st g Ht). Qed.
(** A cell never decreases. *)
Theorem C141_monotone : forall c x, fl 24 c -> 0 <= x -> c <= cell_add c x /\ fl 24 (cell_add c x).
Proof. intros c x F H. split; [now apply cell_mono|]. apply rnd_fl. lia. Qed.
(** Any number of unit trades after 2^24 leaves the cell where it is. *)
Theorem C141_conserved_refuted : forall n, exists prices amounts sides st,
  (forall x, In x amounts -> exists k, (0 < k)%Z /\ x = inject_Z k) /\
  bar_levels_f prices amounts sides 1 1 1 (-1) (Z.of_nat n) = Ok st /\
  qsum (lv_bv st) == 16777216 /\ level_sum sides (fun j => level_f 1 (at_ prices j)) 1 1 (at_ amounts) (-1) (Z.of_nat n) == 16777216 + Qnat n.
Proof. exact levels_f_stuck. Qed.
Example C141_ex : bar_levels_f [10; 11; 10; 12] [d01'; d01'; d01'; 2] [1; -1; 1; 1]%Z 1 10 12 (-1) 3 =
  Ok (mkLv [13421773 # 67108864; 0; 2] [0; 13421773 # 134217728; 0] [2; 0; 1]%Z [0; 1; 0]%Z).
Proof. vm_compute. reflexivity. Qed.
Example C141_stuck_ex : bar_levels_f [1; 1; 1] [16777216; 1; 1] [1; 1; 1]%Z 1 1 1 (-1) 2 = Ok (mkLv [16777216] [0] [3%Z] [0%Z]).
Proof. vm_compute. reflexivity. Qed.

(** * C142  Merged trades in float32 cells *)
(** Distinct prices at least 2e-8 apart: the float run groups as the exact one. *)
Theorem C142_rows : forall rows,
  (forall r r', In r rows -> In r' rows -> m_px r == m_px r' \/ 1 # 50000000 <= Qabs (m_px r - m_px r')) ->
  (forall r, In r rows -> 0 <= m_am r) ->
  Forall2 (fun a b => m_ts b = m_ts a /\ m_px b = m_px a /\ m_side b = m_side a /\
                      within ucell (length rows) (m_am b) (m_am a) /\ fl 24 (m_am b)) (merge_rows rows) (merge_rows_f rows).
Proof.
  intros rows A N. destruct (merge_f_spec rows A N) as [F _]. eapply Forall2_impl'; [|exact F].
  intros a b [H1 [H2 [H3 [_ [H4 H5]]]]]. auto.
Qed.
Theorem C142_total : forall rows,
  (forall r r', In r rows -> In r' rows -> m_px r == m_px r' \/ 1 # 50000000 <= Qabs (m_px r - m_px r')) ->
  (forall r, In r rows -> 0 <= m_am r) ->
  within ucell (length rows) (qsum (map m_am (merge_rows_f rows))) (qsum (map m_am rows)).
Proof. exact merge_f_total. Qed.
Theorem C142_integers : forall rows g,
  (forall r r', In r rows -> In r' rows -> m_px r == m_px r' \/ 1 # 50000000 <= Qabs (m_px r - m_px r')) ->
  (forall r, In r rows -> 0 <= m_am r /\ grid g (m_am r)) -> qsum (map m_am rows) <= Qpower 2 (24 + g) ->
  Forall2 (fun a b => m_ts b = m_ts a /\ m_px b = m_px a /\ m_side b = m_side a /\ m_am b == m_am a) (merge_rows rows) (merge_rows_f rows).
Proof. exact merge_f_exact. Qed.
(** Trades that are not split lose precision as well: every amount becomes a float32. *)
Theorem C142_unsplit_kept_refuted : exists r, fl 53 (m_am r) /\ 0 < m_am r /\ merge_rows [r] = [r] /\
  ~ Forall2 (fun a b => m_am a == m_am b) (merge_rows_f [r]) [r].
Proof.
  exists (mkM 5 3 d01' 1). split; [|split; [reflexivity|split; [reflexivity|]]].
  - exists 7205759403792794%Z, (-56)%Z. split; [reflexivity|vm_compute; reflexivity].
  - intro F. inversion F as [|? ? ? ? H _]; subst. revert H. vm_compute. discriminate.
Qed.
Example C142_ex : merge_rows_f [mkM 5 10 (1 # 2) 1; mkM 5 10 d01' 1; mkM 5 10 1 (-1); mkM 7 11 16777217 1] =
  [mkM 5 10 (5033165 # 8388608) 1; mkM 5 10 1 (-1); mkM 7 11 16777216 1].
Proof. vm_compute. reflexivity. Qed.

(** * C143  Price levels of float prices *)
(** No price between the low and the high of the bar is rejected. *)
Theorem C143_no_error : forall prices amounts sides tick lo hi s e, 0 < tick -> (-1 <= s <= e)%Z -> lo <= hi ->
  (forall j, (s < j <= e)%Z -> lo <= at_ prices j <= hi) ->
  exists st, bar_levels_f prices amounts sides tick lo hi s e = Ok st.
Proof. exact levels_f_ok. Qed.
(** Prices within a quarter tick of the [k]-th multiple get level [k]. *)
Theorem C143_level : forall tick price k, 0 < tick -> (Z.abs k <= 2 ^ 50)%Z ->
  Qabs (price - inject_Z k * tick) <= (1 # 4) * tick -> level_f tick price = k.
Proof. exact level_f_near. Qed.
Theorem C143_monotone : forall tick x y, 0 < tick -> x <= y -> (level_f tick x <= level_f tick y)%Z.
Proof. exact level_f_mono. Qed.
Theorem C143_errors : forall prices amounts sides tick lo hi s e x,
  bar_levels_f prices amounts sides tick lo hi s e = Raise x ->
  (x = ZeroDivisionError /\ tick == 0) \/ (x = ValueError /\ ~ tick == 0).
Proof. exact levels_f_errors. Qed.
(** With the tick size 0.1 every decimal price of one digit below a million gets its own level. *)
Example C143_level_ex : level_f d01' (3602879701896397 # 12009599006321322) = 3%Z /\
  level_f d01' (r53 (9999999 # 10)) = 9999999%Z /\
  Qabs (r53 (9999999 # 10) - inject_Z 9999999 * d01') <= (1 # 4) * d01'.
Proof. split; [|split]; vm_compute; try reflexivity. discriminate. Qed.
Example C143_error_ex : bar_levels_f [1; 2] [1; 1] [1; 1]%Z 1 1 1 (-1) 1 = Raise ValueError.
Proof. vm_compute. reflexivity. Qed.

Print Assumptions C141_levels.
Print Assumptions C141_integers.
Print Assumptions C141_monotone.
Print Assumptions C141_conserved_refuted.
Print Assumptions C142_rows.
Print Assumptions C142_total.
Print Assumptions C142_integers.
Print Assumptions C142_unsplit_kept_refuted.
Print Assumptions C143_no_error.
Print Assumptions C143_level.
Print Assumptions C143_monotone.
Print Assumptions C143_errors.
