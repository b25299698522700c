(** T_features2.v -- property theorems of the rolling feature kernels, continued
    (C53, C58, C63, C89-C92). *)
From Coq Require Import Qpower.
From Verif Require Import Base M_logic M_bars S_bars M_features S_features P_weights P_sort P_features P_features2.
Open Scope Q_scope.

(* ------------------------------------------------------------------ *)
(** ** C53: price/volume correlation *)
(** Return of the step into index j, where both prices exist and the base is not 0. *)
Definition ret (price : nat -> option Q) (j : nat) : option Q :=
  match j with
  | O => None
  | S k => match price k, price (S k) with
           | Some a, Some b => if Qeq_bool a 0 then None else Some ((b - a) / a) | _, _ => None end
  end.
(** Window observations (return, volume), those with a missing part left out. *)
Definition observed (r v : nat -> option Q) (i n : nat) : list (Q * Q) :=
  concat (window (fun j => match r j, v j with Some a, Some b => [(a, b)] | _, _ => [] end) i n).

Lemma pv_return_ret price j : pv_return price j = ret (fun j => nth j price None) j.
Proof.
  destruct j as [|j]; [reflexivity|]. unfold pv_return, ret. replace (S j - 1)%nat with j by lia.
  destruct (nth (S j) price None), (nth j price None); reflexivity.
Qed.
Lemma valid_observed price volume i n :
  valid_pairs price volume i n = observed (ret (fun j => nth j price None)) (fun j => nth j volume None) i n.
Proof.
  unfold valid_pairs, observed, window. rewrite flat_map_concat_map. f_equal. apply map_ext. intro j.
  now rewrite pv_return_ret.
Qed.
(** Outside indices 4..9 the value is the Pearson coefficient of the window: at least two
    observations, positive spreads, and c * sqrt(S_rr) * sqrt(S_vv) = S_rv whenever the two
    square roots are exact. *)
Theorem C53_pearson_partial : forall sqrt price volume n i, (1 <= n <= i)%nat -> (i < length price)%nat ->
  ~ (4 <= i < 10)%nat ->
  let p j := nth j price None in let w j := nth j volume None in
  let rs := map fst (observed (ret p) w i n) in let vs := map snd (observed (ret p) w i n) in
  let out := nth i (pv_correlation sqrt price volume n) None in
  (ret p i = None \/ w i = None \/ (length rs < 2)%nat \/ cross rs rs == 0 \/ cross vs vs == 0 -> out = None) /\
  (ret p i <> None -> w i <> None -> (2 <= length rs)%nat -> ~ cross rs rs == 0 -> ~ cross vs vs == 0 ->
   exists c, out = Some c /\ -(1) <= c <= 1 /\
     let s1 := sqrt (cross rs rs) in let s2 := sqrt (cross vs vs) in
     (0 < s1 -> 0 < s2 -> s1 * s1 == cross rs rs -> s2 * s2 == cross vs vs -> c * (s1 * s2) == cross rs vs)).
Proof.
  intros sqrt price volume n i Hn Hi Hs p w rs vs out. subst out.
  unfold pv_correlation. rewrite nth_map_seq by auto.
  replace (i <? n)%nat with false by (symmetry; apply Nat.ltb_ge; lia).
  rewrite pv_return_ret. change (ret (fun j => nth j price None) i) with (ret p i). change (nth i volume None) with (w i).
  replace ((4 <=? i) && (i <? 10))%nat with false
    by (symmetry; apply andb_false_iff; destruct (le_lt_dec 4 i); [right; apply Nat.ltb_ge; lia|left; apply Nat.leb_gt; lia]).
  cbn [andb]. rewrite valid_observed. pose proof (corr_pairs_eq sqrt (observed (ret p) w i n)) as E. cbv zeta in E.
  fold p w. change (fun j : nat => nth j price None) with p. change (fun j : nat => nth j volume None) with w.
  rewrite E. clear E. fold rs vs.
  assert (L : length (observed (ret p) w i n) = length rs) by (unfold rs; now rewrite map_length).
  assert (L2 : length rs = length vs) by (unfold rs, vs; now rewrite !map_length).
  rewrite L. destruct (cross_cs rs vs L2) as (A1 & A2 & A3). split.
  - intros [H|[H|H]]. { now rewrite H. } { rewrite H. now destruct (ret p i). }
    destruct (ret p i); auto. destruct (w i); auto.
    destruct (Nat.ltb_spec (length rs) 2); auto. destruct (Qltb_spec 0 (cross rs rs)); auto.
    destruct (Qltb_spec 0 (cross vs vs)); auto. destruct H as [H|[H|H]]; [lia|lra|lra].
  - intros H1 H2 H3 H4 H5. destruct (ret p i); [|contradiction]. destruct (w i); [|contradiction].
    destruct (Nat.ltb_spec (length rs) 2); [lia|].
    destruct (Qltb_spec 0 (cross rs rs)); [|exfalso; apply H4; lra].
    destruct (Qltb_spec 0 (cross vs vs)); [|exfalso; apply H5; lra]. cbn [andb].
    eexists. split; [reflexivity|]. split; [apply clamp_range|]. cbv zeta. intros P1 P2 E1 E2.
    rewrite clamp_id by (apply (corr_bound _ _ _ _ _ P1 P2 E1 E2 A3)). field. split; lra.
Qed.
(** Values always lie in [-1, 1]. *)
Theorem C53_range : forall sqrt price volume n i c, (i < length price)%nat ->
  nth i (pv_correlation sqrt price volume n) None = Some c -> -(1) <= c <= 1.
Proof.
  intros sqrt price volume n i c Hi. unfold pv_correlation. rewrite nth_map_seq by auto.
  destruct (i <? n)%nat; [discriminate|]. destruct (pv_return price i); [|discriminate].
  destruct (nth i volume None); [|discriminate]. cbv zeta.
  destruct (_ && _ && _). { intro E. injection E as <-. lra. }
  destruct (_ && _ && _). { intro E. injection E as <-. lra. }
  pose proof (corr_pairs_eq sqrt (valid_pairs price volume i n)) as E. cbv zeta in E. rewrite E.
  destruct (_ <? 2)%nat; [discriminate|]. destruct (_ && _); [|discriminate]. intro F. injection F as <-. apply clamp_range.
Qed.
(** Index 4: the kernel returns +1 although returns and volume are negatively related. *)
Theorem C53_hardcoded_refuted : forall sqrt, exists price volume n i,
  let p j := nth j price None in let w j := nth j volume None in
  nth i (pv_correlation sqrt price volume n) None = Some 1 /\
  let o := observed (ret p) w i n in cross (map fst o) (map snd o) < 0.
Proof.
  intro sqrt. exists (map Some [10; 11; 12; 13; 14]), (map Some [100; 110; 120; 130; 140]), 4%nat, 4%nat.
  cbv zeta. split; [reflexivity|]. vm_compute. reflexivity.
Qed.
(** Index 4, window 1: +1 from a single observation. *)
Theorem C53_single_refuted : forall sqrt, exists price volume i,
  nth i (pv_correlation sqrt price volume 1) None = Some 1 /\
  length (observed (ret (fun j => nth j price None)) (fun j => nth j volume None) i 1) = 1%nat.
Proof.
  intro sqrt. exists (map Some [10; 9; 8; 7; 6]), (map Some [5; 4; 3; 2; 1]), 4%nat. split; reflexivity.
Qed.
Definition ex_price : list (option Q) := map Some [10; 11; 11; 22].
Definition ex_volume : list (option Q) := map Some [1; 2; 3; 7].
Example C53_example : let p j := nth j ex_price None in let w j := nth j ex_volume None in
  let o := observed (ret p) w 3 2 in
  map (fun x => (Qred (fst x), Qred (snd x))) o = [(0, 3); (1, 7)] /\ cross (map fst o) (map fst o) == 1 # 2 /\
  cross (map snd o) (map snd o) == 8 /\ cross (map fst o) (map snd o) == 2.
Proof. vm_compute. repeat split; reflexivity. Qed.

(* ------------------------------------------------------------------ *)
(** ** C58: time-lagged returns *)
(** Return of price a against base b. *)
Definition is_return (ln : Q -> Q) (is_log : bool) (a b : Q) (o : ext) : Prop :=
  (b == 0 -> o = PInf) /\
  (~ b == 0 -> exists x, x * b == a /\ if is_log then (0 < x -> o = Fin (ln x)) else exists d, o = Fin d /\ d == x - 1).
Lemma lag_return_spec ln lg a b : is_return ln lg a b (lag_return ln lg a b).
Proof.
  unfold is_return, lag_return. destruct (Qeqb_spec b 0) as [E|N]; split; intro H; try contradiction; auto.
  exists (a / b). split; [field; auto|]. destruct lg.
  - intro P. unfold flog. destruct (Qltb_spec 0 (a / b)); [auto|lra].
  - eauto using Qeq_refl.
Qed.
(** Timestamps and window on a 256 ns grid (e.g. multiples of 0.1 s), where float64
    represents them exactly: the base is the last price at or before the lag time. *)
Theorem C58_grid_partial : forall ln ts close W is_log out i,
  comp_lagged_returns ln ts close W is_log = Ok out -> length ts = length close -> ascZ ts ->
  (forall t, In t ts -> (0 <= t < 2 ^ 61 - W)%Z /\ (256 | t)%Z) -> (256 | W)%Z -> (i < length close)%nat ->
  (forall j, last_at_or_before ts (nth i ts 0 - W)%Z j ->
     (j < i)%nat /\ is_return ln is_log (at_ close i) (at_ close j) (nth i out NaN)) /\
  ((forall j, (j < length ts)%nat -> (nth i ts 0 - W < nth j ts 0)%Z) -> nth i out NaN = NaN).
Proof.
  intros ln ts close W lg out i E L A H1 H2 Hi.
  destruct (lagged_exact ln ts close W lg out i E L A H1 H2 Hi) as [R1 R2]. split; auto.
  intros j Hj. destruct (R1 j Hj) as [R3 R4]. split; auto. rewrite R4. apply lag_return_spec.
Qed.
(** Any timestamps: the base index is off by at most the rounding of float64, 384 ns. *)
Theorem C58_accuracy : forall ln ts close W is_log out i,
  comp_lagged_returns ln ts close W is_log = Ok out -> length ts = length close -> ascZ ts ->
  (forall t, In t ts -> (W <= t < 2 ^ 61 - W - 256)%Z) -> (i < length close)%nat -> nth i out NaN <> NaN ->
  exists j, (j < i)%nat /\ is_return ln is_log (at_ close i) (at_ close j) (nth i out NaN) /\
    (nth j ts 0 <= nth i ts 0 - W + 384)%Z /\
    forall k, (j < k < length ts)%nat -> (nth i ts 0 - W - 384 < nth k ts 0)%Z.
Proof.
  intros ln ts close W lg out i E L A H1 Hi N.
  destruct (lagged_accuracy ln ts close W lg out i E L A H1 Hi N) as (j & R1 & R2 & R3).
  exists j. split; auto. split; auto. rewrite R2. apply lag_return_spec.
Qed.
(** Later prices never matter. *)
Theorem C58_causal : forall ln ts c1 c2 W is_log o1 o2 i,
  comp_lagged_returns ln ts c1 W is_log = Ok o1 -> comp_lagged_returns ln ts c2 W is_log = Ok o2 ->
  (i < length c1)%nat -> (i < length c2)%nat -> (forall j, (j <= i)%nat -> at_ c1 j = at_ c2 j) -> nth i o1 NaN = nth i o2 NaN.
Proof.
  intros ln ts c1 c2 W lg o1 o2 i E1 E2 H1 H2 H.
  destruct (lagged_nth _ _ _ _ _ _ _ E1 H1) as (_ & _ & ->). destruct (lagged_nth _ _ _ _ _ _ _ E2 H2) as (_ & _ & ->).
  destruct (_ <? _)%nat; auto. cbv zeta. set (lag := (_ - 1)%Z).
  destruct ((0 <=? lag) && (lag <? Z.of_nat i))%Z eqn:C; auto.
  apply andb_true_iff in C. destruct C as [C1 C2]. apply Z.leb_le in C1. apply Z.ltb_lt in C2.
  change (qn c1 i) with (at_ c1 i). change (qn c2 i) with (at_ c2 i).
  change (qn c1 (Z.to_nat lag)) with (at_ c1 (Z.to_nat lag)). change (qn c2 (Z.to_nat lag)) with (at_ c2 (Z.to_nat lag)).
  now rewrite !H by lia.
Qed.
Theorem C58_rejects : forall ln ts close W is_log,
  comp_lagged_returns ln ts close W is_log = Raise ValueError <-> (W <= 0)%Z.
Proof. intros. unfold comp_lagged_returns. destruct (Z.leb_spec W 0); split; intro; try tauto; try lia; discriminate. Qed.
(** Microsecond timestamps with the default window of 1 microsecond: the previous tick
    lies exactly at the lag time, but the one before it is used. *)
Theorem C58_rounding_refuted : exists ts close W out,
  ascZ ts /\ comp_lagged_returns (fun x => x) ts close W false = Ok out /\
  last_at_or_before ts (nth 2 ts 0 - W)%Z 1 /\
  is_return (fun x => x) false (at_ close 2) (at_ close 0) (nth 2 out NaN) /\
  ~ is_return (fun x => x) false (at_ close 2) (at_ close 1) (nth 2 out NaN).
Proof.
  exists [1600000000000004000; 1600000000000005000; 1600000000000006000]%Z, [100; 200; 100], 1000%Z. eexists.
  split. { intros i j Hij. simpl in Hij. destruct i as [|[|[|i]]], j as [|[|[|j]]]; cbn [nth]; lia. }
  split; [vm_compute; reflexivity|]. split.
  { split; [simpl; lia|]. split; [cbn [nth]; lia|]. intros k Hk. simpl in Hk. assert (k = 2%nat) by lia. subst. cbn [nth]. lia. }
  cbn [nth]. split.
  - split; [intro C; discriminate|]. intros _. exists 1. split; [reflexivity|]. eexists. split; [reflexivity|]. reflexivity.
  - intros [_ H]. destruct H as (x & Hx & d & Ed & Hd). { discriminate. }
    injection Ed as <-. unfold at_ in Hx. cbn [nth] in Hx. match type of Hd with ?d == _ => assert (D0 : d == 0) by reflexivity end. lra.
Qed.
Definition ex_ts : list Z := map (fun s => s * 100000000)%Z [16000000000; 16000000005; 16000000010; 16000000030]%Z.
Example C58_example : exists out, comp_lagged_returns (fun x => x) ex_ts [100; 110; 121; 100] 1000000000 false = Ok out /\
  map (fun o => match o with Fin q => Some (Qred q) | _ => None end) out = [None; None; Some (21 # 100); Some (-21 # 121)] /\
  last_at_or_before ex_ts (nth 3 ex_ts 0 - 1000000000)%Z 2 /\
  (forall t, In t ex_ts -> (0 <= t < 2 ^ 61 - 1000000000)%Z /\ (256 | t)%Z).
Proof.
  eexists. split; [vm_compute; reflexivity|]. split; [vm_compute; reflexivity|]. split.
  - split; [simpl; lia|]. split; [vm_compute; discriminate|]. intros k Hk. simpl in Hk. assert (k = 3%nat) by lia. subst. reflexivity.
  - intros t Ht. simpl in Ht. destruct Ht as [<-|[<-|[<-|[<-|[]]]]]; (split; [vm_compute; split; [discriminate|reflexivity]|]);
      apply Z.mod_divide; vm_compute; congruence.
Qed.

(* ------------------------------------------------------------------ *)
(** ** C63: calendar cues *)
Open Scope Z_scope.
Definition ns_hour : Z := 3600000000000.
Definition ns_minute : Z := 60000000000.
(** [d] days since 1970-01-01 and [r] nanoseconds into the day; any timestamp, also negative. *)
Theorem C63_time_cues : forall sin cos t d r, t = d * (24 * ns_hour) + r -> 0 <= r < 24 * ns_hour ->
  let c := time_cue sin cos t in
  (c_asia c = true <-> r < 8 * ns_hour) /\
  (c_eu c = true <-> 7 * ns_hour <= r < 15 * ns_hour) /\
  (c_us c = true <-> 13 * ns_hour <= r < 21 * ns_hour) /\
  (c_top c = true <-> exists h m, 0 <= h /\ 0 <= m < ns_minute /\ r = h * ns_hour + m) /\
  (c_trans c = true <-> exists h m, (h = 0 \/ h = 7 \/ h = 13) /\ 0 <= m < ns_minute /\ r = h * ns_hour + m) /\
  (exists s, 0 <= r - s * 1000000000 < 1000000000 /\ c_sin_td c = sin (inject_Z s / 86400)%Q /\ c_cos_td c = cos (inject_Z s / 86400)%Q) /\
  (exists w k, d + 3 = 7 * k + w /\ 0 <= w < 7 /\ c_sin_dw c = sin (inject_Z w / 7)%Q /\ c_cos_dw c = cos (inject_Z w / 7)%Q).
Proof.
  intros sin cos t d r E Hr. unfold time_cue. cbv zeta.
  cbn [c_asia c_eu c_us c_top c_trans c_sin_td c_cos_td c_sin_dw c_cos_dw]. unfold ns_hour, ns_minute in *.
  set (ts := t / 1000000000).
  assert (T : 1000000000 * ts <= t < 1000000000 * ts + 1000000000).
  { unfold ts. pose proof (Z.div_mod t 1000000000 ltac:(lia)). pose proof (Z.mod_pos_bound t 1000000000 ltac:(lia)). lia. }
  clearbody ts.
  set (sd := ts mod 86400).
  assert (D : ts / 86400 = d /\ ts mod 86400 = ts - 86400 * d).
  { assert (ts = 86400 * d + (ts - 86400 * d)) by lia.
    split; [symmetry; apply (Z.div_unique_pos ts 86400 d (ts - 86400 * d)); lia|symmetry; apply (Z.mod_unique_pos ts 86400 d (ts - 86400 * d)); lia]. }
  destruct D as [D1 D2]. rewrite D1.
  assert (S0 : 0 <= r - sd * 1000000000 < 1000000000) by (unfold sd; rewrite D2; lia). clearbody sd.
  set (h := sd / 3600). set (m := (sd mod 3600) / 60).
  assert (Hh : 0 <= sd - 3600 * h < 3600).
  { unfold h. pose proof (Z.div_mod sd 3600 ltac:(lia)). pose proof (Z.mod_pos_bound sd 3600 ltac:(lia)). lia. }
  assert (Hm : 60 * m <= sd - 3600 * h < 60 * m + 60).
  { unfold m, h. rewrite Z.mod_eq by lia. set (y := sd - 3600 * (sd / 3600)).
    pose proof (Z.div_mod y 60 ltac:(lia)). pose proof (Z.mod_pos_bound y 60 ltac:(lia)). lia. }
  clearbody h m.
  rewrite !andb_true_iff, !orb_true_iff, !Z.leb_le, !Z.ltb_lt, !Z.eqb_eq.
  split; [lia|]. split; [lia|]. split; [lia|]. split.
  { split; [intro; exists h, (r - h * 3600000000000); lia|]. intros (h' & m' & H1 & H2 & H3). assert (h' = h) by lia. lia. }
  split.
  { split; [intros [H1 H2]; exists h, (r - h * 3600000000000); lia|]. intros (h' & m' & H1 & H2 & H3). assert (h' = h) by lia. lia. }
  split.
  { exists sd. split; [lia|]. split; reflexivity. }
  exists ((d + 3) mod 7), ((d + 3) / 7). split; [apply Z.div_mod; lia|]. split; [apply Z.mod_pos_bound; lia|]. split; reflexivity.
Qed.
Theorem C63_rowwise : forall sin cos ts i, (i < length ts)%nat ->
  nth_error (time_cues sin cos ts) i = Some (time_cue sin cos (nth i ts 0)) /\ length (time_cues sin cos ts) = length ts.
Proof.
  intros. unfold time_cues. split; [|apply map_length]. rewrite nth_error_map.
  rewrite (nth_error_nth' ts 0) by auto. reflexivity.
Qed.
(** Monday 2024-01-01 07:00:30 UTC, and 1 ns before the epoch (a Wednesday, 23:59:59). *)
Example C63_example :
  let c := time_cue (fun x => x) (fun x => x) 1704092430000000000 in
  let e := time_cue (fun x => x) (fun x => x) (-1) in
  (c_sin_dw c == 0)%Q /\ c_trans c = true /\ c_asia c = true /\ c_eu c = true /\ c_us c = false /\
  (c_sin_dw e == 2 # 7)%Q /\ (c_sin_td e == 86399 # 86400)%Q.
Proof. vm_compute. repeat split; reflexivity. Qed.
Open Scope Q_scope.

(* ------------------------------------------------------------------ *)
(** ** C89: rolling z-score *)
Theorem C89_zscore : forall sqrt xs n ddof i, (1 <= n)%nat -> (ddof < Z.of_nat n)%Z -> (i < length xs)%nat ->
  let w := window (at_ xs) i n in
  ((i + 1 < n)%nat -> nth i (comp_zscore sqrt xs n ddof) None = None) /\
  ((n <= i + 1)%nat -> exists m var,
     is_mean m w /\ var * inject_Z (Z.of_nat n - ddof) == qsum (map (fun x => (x - m) * (x - m)) w) /\ 0 <= var /\
     (sqrt var == 0 -> nth i (comp_zscore sqrt xs n ddof) None = None) /\
     (~ sqrt var == 0 -> exists z, nth i (comp_zscore sqrt xs n ddof) None = Some z /\ z * sqrt var == at_ xs i - m)).
Proof.
  intros sqrt xs n ddof i Hn Hd Hi w. unfold comp_zscore. rewrite nth_map_seq by auto. split; intro H.
  - now replace (i + 1 <? n)%nat with true by (symmetry; apply Nat.ltb_lt; lia).
  - replace (i + 1 <? n)%nat with false by (symmetry; apply Nat.ltb_ge; lia). cbv zeta.
    rewrite lastn_window by lia. fold w. assert (Lw : length w = n) by apply window_length.
    set (m := qsum w / Qnat (length w)). set (var := _ / inject_Z _).
    assert (Pd : 0 < inject_Z (Z.of_nat n - ddof)) by (change 0 with (inject_Z 0); rewrite <- Zlt_Qlt; lia).
    exists m, var. split. { apply mean_div. now apply window_nonnil. }
    assert (V : var * inject_Z (Z.of_nat n - ddof) == qsum (map (fun x => (x - m) * (x - m)) w)).
    { unfold var. rewrite Lw. field. lra. }
    split; auto. split.
    { unfold var. rewrite Lw. apply Qle_shift_div_l; auto. rewrite Qmult_0_l. apply qsum_nonneg. intros y Hy.
      apply in_map_iff in Hy. destruct Hy as (x & <- & _). destruct (Qlt_le_dec (x - m) 0); nra. }
    split; intro Z0; destruct (Qeqb_spec (sqrt var) 0); try contradiction; auto.
    eexists. split; [reflexivity|]. unfold qn, at_. field. auto.
Qed.
Example C89_example : map (option_map Qred) (comp_zscore (fun x => x) [1; 3; 5; 5] 2 0) = [None; Some 1; Some 1; None].
Proof. vm_compute. reflexivity. Qed.

(* ------------------------------------------------------------------ *)
(** ** C90: average directional index *)
Definition true_range (high low close : nat -> Q) (i : nat) : Q :=
  Qmax (high i - low i) (Qmax (Qabs (high i - close (i - 1)%nat)) (Qabs (low i - close (i - 1)%nat))).
Definition up_move (high low : nat -> Q) (i : nat) (m : Q) : Prop :=
  let u := high i - high (i - 1)%nat in let d := low (i - 1)%nat - low i in
  (d < u /\ 0 < u /\ m == u) \/ (~ (d < u /\ 0 < u) /\ m == 0).
Definition down_move (high low : nat -> Q) (i : nat) (m : Q) : Prop :=
  let u := high i - high (i - 1)%nat in let d := low (i - 1)%nat - low i in
  (u < d /\ 0 < d /\ m == d) \/ (~ (u < d /\ 0 < d) /\ m == 0).
(** Directional index from the Wilder averages P, M of the moves and T of the true range. *)
Definition is_dx (P M T d : Q) : Prop :=
  (0 < T /\ 0 < P + M /\ d * (P + M) == 100 * Qabs (P - M)) \/ ((T <= 0 \/ P + M <= 0) /\ d == 0).
Theorem C90_range : forall high low close n i, (1 <= n)%nat -> (i < length high)%nat ->
  0 <= nth i (adx_core high low close n) 0 <= 100 /\ ((i + 1 < 2 * n)%nat -> nth i (adx_core high low close n) 0 = 0).
Proof.
  intros high low close n i Hn Hi. rewrite adx_nth by auto. destruct (Nat.ltb_spec (i + 1) (2 * n)) as [B|B].
  - split; [lra|auto].
  - split; [|lia]. rewrite adx_wilder by auto. apply wilder_bounds; auto. intros j _. now apply dx_range.
Qed.
Lemma dx_is_dx high low close n i : (1 <= n <= i)%nat ->
  is_dx (wilder_avg (plus_dm high low) n (i - n)) (wilder_avg (minus_dm high low) n (i - n))
        (wilder_avg (true_rng high low close) n (i - n)) (dx high low close n i).
Proof.
  intro Hn. unfold dx. replace (i <? n)%nat with false by (symmetry; apply Nat.ltb_ge; lia). cbv zeta.
  assert (Np : 0 < Qnat n) by (apply Qnat_pos; lia).
  pose proof (wsum_wilder (plus_dm high low) n (i - n) ltac:(lia)) as EP.
  pose proof (wsum_wilder (minus_dm high low) n (i - n) ltac:(lia)) as EM.
  pose proof (wsum_wilder (true_rng high low close) n (i - n) ltac:(lia)) as ET.
  assert (PP : 0 <= wilder_avg (plus_dm high low) n (i - n)) by (apply wilder_avg_nonneg; [lia|intro; apply plus_dm_nonneg]).
  assert (PM : 0 <= wilder_avg (minus_dm high low) n (i - n)) by (apply wilder_avg_nonneg; [lia|intro; apply minus_dm_nonneg]).
  set (p := wsum (plus_dm high low) _ _) in *. set (m := wsum (minus_dm high low) _ _) in *. set (t := wsum (true_rng _ _ _) _ _) in *.
  set (P := wilder_avg (plus_dm _ _) _ _) in *. set (M := wilder_avg (minus_dm _ _) _ _) in *. set (T := wilder_avg (true_rng _ _ _) _ _) in *.
  set (N := Qnat n) in *. clearbody p m t P M T N.
  unfold is_dx. destruct (Qlt_le_dec 0 T) as [HT|HT]; [|right; split; [now left|]].
  2:{ unfold di. destruct (Qltb_spec 0 t); [exfalso; nra|]. reflexivity. }
  assert (Pt : 0 < t) by (rewrite ET; nra).
  assert (D1 : di p t == 100 * P / T). { unfold di. destruct (Qltb_spec 0 t); [|lra]. rewrite EP, ET. field. split; lra. }
  assert (D2 : di m t == 100 * M / T). { unfold di. destruct (Qltb_spec 0 t); [|lra]. rewrite EM, ET. field. split; lra. }
  assert (SUM : di p t + di m t == 100 / T * (P + M)) by (rewrite D1, D2; field; lra).
  assert (DIF : di p t - di m t == 100 / T * (P - M)) by (rewrite D1, D2; field; lra).
  assert (K : 0 < 100 / T) by (apply Qlt_shift_div_l; lra).
  set (k := 100 / T) in *. clearbody k. unfold dx_of.
  destruct (Qlt_le_dec 0 (P + M)) as [HS|HS]; [left|right; split; [now right|]].
  - split; auto. split; auto. destruct (Qltb_spec 0 (di p t + di m t)); [|exfalso; nra].
    rewrite SUM, DIF, Qabs_Qmult, (Qabs_pos k) by lra. field. split; lra.
  - destruct (Qltb_spec 0 (di p t + di m t)); [exfalso; nra|reflexivity].
Qed.
Lemma pmax_Qmax a b : pmax a b == Qmax a b.
Proof.
  unfold pmax. destruct (Qltb_spec a b); [now rewrite Q.max_r by lra|now rewrite Q.max_l by lra].
Qed.
(** The value is the Wilder average of the directional index, itself computed from Wilder
    averages of the moves and of the true range. *)
Theorem C90_value : forall high low close n i, (1 <= n)%nat -> (i < length high)%nat -> (2 * n <= i + 1)%nat ->
  exists pm mm tr d,
    (forall j, (1 <= j)%nat -> up_move (at_ high) (at_ low) j (pm j) /\ down_move (at_ high) (at_ low) j (mm j) /\
                               tr j == true_range (at_ high) (at_ low) (at_ close) j) /\
    (forall j, (n <= j <= i)%nat -> is_dx (wilder_avg pm n (j - n)) (wilder_avg mm n (j - n)) (wilder_avg tr n (j - n)) (d j)) /\
    nth i (adx_core high low close n) 0 == wilder_avg (fun j => d (n - 1 + j)%nat) n (i + 1 - 2 * n).
Proof.
  intros high low close n i Hn Hi H2.
  exists (plus_dm high low), (minus_dm high low), (true_rng high low close), (dx high low close n).
  split; [|split].
  - intros j Hj. unfold plus_dm, minus_dm, true_rng. replace (j =? 0)%nat with false by (symmetry; apply Nat.eqb_neq; lia).
    cbv zeta. change (qn high) with (at_ high). change (qn low) with (at_ low). change (qn close) with (at_ close).
    unfold up_move, down_move. cbv zeta.
    set (u := at_ high j - at_ high (j - 1)). set (e := at_ low (j - 1) - at_ low j). split; [|split].
    + destruct (Qltb_spec e u); cbn [andb]; [destruct (Qltb_spec 0 u); cbn [andb]|]; [left|right|right]; repeat split; try lra; intros [? ?]; lra.
    + destruct (Qltb_spec u e); cbn [andb]; [destruct (Qltb_spec 0 e); cbn [andb]|]; [left|right|right]; repeat split; try lra; intros [? ?]; lra.
    + unfold true_range. rewrite !pmax_Qmax. now rewrite Q.max_assoc.
  - intros j Hj. apply dx_is_dx. lia.
  - rewrite adx_nth by auto. replace (i + 1 <? 2 * n)%nat with false by (symmetry; apply Nat.ltb_ge; lia). now apply adx_wilder.
Qed.
Example C90_example : map Qred (adx_core [12; 14; 15; 14; 16; 18] [10; 11; 13; 12; 13; 15] [11; 13; 14; 13; 15; 17] 2) =
  [0; 0; 0; 60; 840 # 13; 28430 # 377].
Proof. vm_compute. reflexivity. Qed.

(* ------------------------------------------------------------------ *)
(** ** C91: rate of change and percentage change *)
Theorem C91_roc : forall p k,
  (roc p k = Raise ZeroDivisionError <-> exists i, (k <= i < length p)%nat /\ at_ p (i - k) == 0) /\
  (forall out, roc p k = Ok out -> length out = length p /\ forall i, (i < length p)%nat ->
     ((i < k)%nat -> nth i out None = None) /\
     ((k <= i)%nat -> exists v, nth i out None = Some v /\ v * at_ p (i - k) == 100 * (at_ p i - at_ p (i - k)))).
Proof.
  intros p k.
  assert (X : existsb (fun i => Qeqb (qn p (i - k)) 0) (seq k (length p - k)) = true <->
              exists i, (k <= i < length p)%nat /\ at_ p (i - k) == 0).
  { rewrite existsb_exists. split.
    - intros (i & Hi & E). apply in_seq in Hi. exists i. split; [lia|]. now apply Qeq_bool_iff.
    - intros (i & Hi & E). exists i. split; [apply in_seq; lia|]. now apply Qeq_bool_iff. }
  unfold roc. destruct (existsb _ _).
  - split; [|discriminate]. split; auto. intros _. now apply X.
  - split. { split; [discriminate|]. intro C. apply X in C. discriminate. }
    intros out E. injection E as <-. rewrite map_length, seq_length. split; auto. intros i Hi. rewrite nth_map_seq by auto.
    split; intro H.
    + now replace (i <? k)%nat with true by (symmetry; apply Nat.ltb_lt; lia).
    + replace (i <? k)%nat with false by (symmetry; apply Nat.ltb_ge; lia). eexists. split; [reflexivity|].
      assert (~ at_ p (i - k) == 0). { intro C. apply (Bool.diff_false_true). apply X. exists i. split; [lia|auto]. }
      unfold qn, at_ in *. field. auto.
Qed.
Theorem C91_pct : forall xs k i, (i < length xs)%nat ->
  ((i < k)%nat -> nth i (pct_change xs k) None = None) /\
  ((k <= i)%nat -> 0 < at_ xs (i - k) ->
     exists v, nth i (pct_change xs k) None = Some v /\ at_ xs i == (1 + v) * at_ xs (i - k)) /\
  ((k <= i)%nat -> at_ xs (i - k) <= 0 -> nth i (pct_change xs k) None = None).
Proof.
  intros xs k i Hi. unfold pct_change. rewrite nth_map_seq by auto. split; [|split].
  - intro H. now replace (i <? k)%nat with true by (symmetry; apply Nat.ltb_lt; lia).
  - intros H P. replace (i <? k)%nat with false by (symmetry; apply Nat.ltb_ge; lia). cbv zeta.
    change (qn xs) with (at_ xs). destruct (Qltb_spec 0 (at_ xs (i - k))); [|lra]. eexists. split; [reflexivity|]. field. lra.
  - intros H P. replace (i <? k)%nat with false by (symmetry; apply Nat.ltb_ge; lia). cbv zeta.
    change (qn xs) with (at_ xs). destruct (Qltb_spec 0 (at_ xs (i - k))); [lra|auto].
Qed.
Example C91_example : exists out, roc [10; 11; 12] 2 = Ok out /\ map (option_map Qred) out = [None; None; Some 20] /\
  map (option_map Qred) (pct_change [10; 11; 0; 5] 1) = [None; Some (1 # 10); Some (-1 # 1); None] /\
  roc [0; 1] 1 = Raise ZeroDivisionError.
Proof. eexists. split; [vm_compute; reflexivity|]. vm_compute. repeat split; reflexivity. Qed.

(* ------------------------------------------------------------------ *)
(** ** C92: burst ratio *)
(** Middle value of the sorted window (mean of the two middle ones). *)
Definition is_median (m : Q) (l : list Q) : Prop :=
  forall srt, ascQ srt -> Permutation l srt -> m == (nth ((length l - 1) / 2) srt 0 + nth (length l / 2) srt 0) / 2.
Theorem C92_burst : forall xs n i, (1 <= n)%nat -> (i < length xs)%nat ->
  ((i + 1 < n)%nat -> nth i (comp_burst_ratio xs n) None = None) /\
  ((n <= i + 1)%nat -> exists m, is_median m (window (at_ xs) i n) /\
     (0 < m -> exists v, nth i (comp_burst_ratio xs n) None = Some v /\ v * m == at_ xs i) /\
     (m <= 0 -> nth i (comp_burst_ratio xs n) None = None)).
Proof.
  intros xs n i Hn Hi. unfold comp_burst_ratio. rewrite nth_map_seq by auto. split; intro H.
  - now replace (i + 1 <? n)%nat with true by (symmetry; apply Nat.ltb_lt; lia).
  - replace (i + 1 <? n)%nat with false by (symmetry; apply Nat.ltb_ge; lia). cbv zeta. rewrite lastn_window by lia.
    set (m := median (window (at_ xs) i n)). exists m. split.
    { intros srt A P. apply median_mid; auto. now apply window_nonnil. }
    destruct (Qltb_spec 0 m); split; intro C; try lra; auto.
    eexists. split; [reflexivity|]. unfold qn, at_. field. lra.
Qed.
Example C92_example : map (option_map Qred) (comp_burst_ratio [1; 2; 9; 4; 4] 3) = [None; None; Some (9 # 2); Some 1; Some 1].
Proof. vm_compute. reflexivity. Qed.

Print Assumptions C53_pearson_partial.
Print Assumptions C53_range.
Print Assumptions C53_hardcoded_refuted.
Print Assumptions C53_single_refuted.
Print Assumptions C58_grid_partial.
Print Assumptions C58_accuracy.
Print Assumptions C58_causal.
Print Assumptions C58_rejects.
Print Assumptions C58_rounding_refuted.
Print Assumptions C63_time_cues.
Print Assumptions C63_rowwise.
Print Assumptions C89_zscore.
Print Assumptions C90_range.
Print Assumptions C90_value.
Print Assumptions C91_roc.
Print Assumptions C91_pct.
Print Assumptions C92_burst.
