(** T_online.v -- C178: bars, features, events and labels computed from the trades so far compared with those computed from all trades. *)
From Verif Require Import Base M_logic M_bars M_footprint M_trades M_fpdata M_builder M_sampling M_tbm M_weights M_features S_logic S_pieces S_causal S_online S_tbm
  P_logic P_cusumbar P_sampling P_pieces P_shift P_shift2 P_time P_tbm P_online T_causal T_pieces.
Open Scope Z_scope.

(* ================================================================== *)
(** * C178  A run on the trades so far *)

(** Tick, volume, dollar and CUSUM bars: whatever a builder returned for the trades so far is the beginning of what it returns for all trades. *)
Theorem C178_builders : forall (ln log1p : Q -> Q) (t u : trades) (k k' : kit) (c c' : call) (r r' : reply),
  tidy t -> tidy u -> same_builder t u k k' -> same_call c c' ->
  fst (exec ln log1p (fresh k t) c) = Ok r -> fst (exec ln log1p (fresh k' (joined t u)) c') = Ok r' -> starts_reply r r'.
Proof.
  intros ln log1p t u k k' c c' r r' Ht (Nu & Lp & La & S) SB SC H1 H2. exact (online_calls ln log1p t u Ht (conj Lp (conj La S)) k k' c c' r r' SB SC H1 H2).
Qed.
Definition x8_t : trades := mkTr [1; 2; 2; 4; 7] [100; 101; 99; 102; 103]%Q [2; 1; 3; 1; 2]%Q (Some [1; 1; -1; 1; 1]).
Definition x8_u : trades := mkTr [8; 9; 11; 11] [101; 104; 104; 100]%Q [4; 1; 1; 5]%Q (Some [-1; 1; 1; -1]).
Lemma x8_tidy : tidy x8_t /\ tidy x8_u.
Proof. split; (split; [discriminate|split; [reflexivity|split; [reflexivity|eexists; split; reflexivity]]]). Qed.
Example C178_builders_example :
  (forall c c' r r', same_call c c' -> fst (exec (fun q => q) (fun q => q) (fresh (KVolume 3) x8_t) c) = Ok r ->
     fst (exec (fun q => q) (fun q => q) (fresh (KVolume 3) (joined x8_t x8_u)) c') = Ok r' -> starts_reply r r') /\
  fst (exec (fun q => q) (fun q => q) (fresh (KVolume 3) x8_t) CIdx) = Ok (RIdx [1; 2; 4]) /\
  fst (exec (fun q => q) (fun q => q) (fresh (KVolume 3) (joined x8_t x8_u)) CIdx) = Ok (RIdx [1; 2; 4; 5; 8]) /\
  (exists fd fd', fst (exec (fun q => q) (fun q => q) (fresh (KVolume 3) x8_t) (CFoot (Some 1%Q) 2)) = Ok (RFoot fd) /\
     fst (exec (fun q => q) (fun q => q) (fresh (KVolume 3) (joined x8_t x8_u)) (CFoot (Some 1%Q) 2)) = Ok (RFoot fd') /\ length (fd_lv fd) = 3%nat /\ length (fd_lv fd') = 5%nat).
Proof.
  split; [|split; [vm_compute; reflexivity|split; [vm_compute; reflexivity|eexists; eexists; split; [vm_compute; reflexivity|split; [vm_compute; reflexivity|split; reflexivity]]]]].
  intros c c' r r' SC. destruct x8_tidy as [A B]. exact (C178_builders _ _ x8_t x8_u _ _ c c' r r' A B (sb_volume _ _ _) SC).
Qed.
Example C178_cusum_example : same_builder x8_t x8_u (KCusum [None; Some 1; None; Some 2; None]%Q (1 # 10) 1) (KCusum ([None; Some 1; None; Some 2; None] ++ [None; Some 3; None; None])%Q (1 # 10) 1).
Proof. apply (sb_cusum x8_t x8_u _ _ _ _ 1%nat); try reflexivity; [split; [eexists; reflexivity|intros j Hj; now replace j with 0%nat by lia]|cbn; lia|discriminate]. Qed.

(** Time bars: every bar but the last one, and the last one too if its interval has passed before the next trade. *)
Theorem C178_time_bars : forall ln I t u f g, 512 <= I -> (512 | I) -> recent I t -> recent I (joined t u) -> t_ts u <> [] ->
  time_bars ln I t = Ok f -> time_bars ln I (joined t u) = Ok g ->
  starts (removelast f) g /\ (length f <= length g)%nat /\
  forall i d, (i < length f)%nat -> fst (nth i f d) < hd 0 (t_ts u) -> nth i g d = nth i f d.
Proof.
  intros ln I t u f g HI DI Rt Rj Nu Ef Eg.
  destruct (time_bars_closed ln I t HI DI Rt) as [K1 C1]. destruct (time_bars_closed ln I (joined t u) HI DI Rj) as [K2 C2].
  rewrite C1 in Ef. rewrite C2 in Eg. destruct (Z.eqb_spec (tick_lo I t) (tick_hi I t)); [discriminate|]. destruct (Z.eqb_spec (tick_lo I (joined t u)) (tick_hi I (joined t u))); [discriminate|].
  injection Ef as <-. injection Eg as <-. pose proof (second_tick I t HI DI Rt) as ST.
  pose proof Rt as (Hne & Lp & La & Ha & H0 & HN). pose proof Rj as (_ & _ & _ & Haj & _ & HNj).
  assert (Elo : tick_lo I (joined t u) = tick_lo I t) by (unfold tick_lo, joined; cbn [t_ts]; destruct (t_ts t); [easy|reflexivity]).
  assert (LU : last (t_ts t) 0 <= hd 0 (t_ts u)).
  { rewrite (last_nth_ (t_ts t) 0) by exact Hne. pose proof (Haj (length (t_ts t) - 1)%nat (length (t_ts t))) as H. unfold joined in H. cbn [t_ts] in H. rewrite app_length in H.
    assert (P : (1 <= length (t_ts t))%nat) by (destruct (t_ts t); [easy|cbn; lia]). assert (Q : (1 <= length (t_ts u))%nat) by (destruct (t_ts u); [easy|cbn; lia]).
    specialize (H ltac:(lia)). rewrite app_nth1 in H by lia. rewrite app_nth2, Nat.sub_diag in H by lia. destruct (t_ts u); [easy|exact H]. }
  assert (LL : last (t_ts t) 0 <= last (t_ts (joined t u)) 0) by (apply asc_in_last; [exact Haj|]; unfold joined; cbn [t_ts]; apply in_or_app; left; rewrite (last_nth_ (t_ts t) 0) by exact Hne; apply nth_In; destruct (t_ts t); [easy|cbn; lia]).
  assert (Ehi : tick_hi I t <= tick_hi I (joined t u)).
  { unfold tick_hi. pose proof (f64_mono _ _ LL) as FM. pose proof (cdiv_spec (f64 (last (t_ts t) 0)) I ltac:(lia)). pose proof (cdiv_spec (f64 (last (t_ts (joined t u)) 0)) I ltac:(lia)). nia. }
  rewrite Elo. set (lo := tick_lo I t) in *. set (hi := tick_hi I t) in *. set (hi' := tick_hi I (joined t u)) in *.
  assert (Same : forall j, lo + 1 <= j -> j * I < hd 0 (t_ts u) -> bar_at I (joined t u) j = bar_at I t j).
  { intros j J1 J2. unfold bar_at. f_equal. unfold joined at 1 2 3 4. cbn [t_px t_am t_ts]. unfold close_at. rewrite !ss_left_part by (intros _; nia).
    pose proof (ss_right_le (t_ts t) (j * I)). pose proof (ss_right_mono_ (t_ts t) ((j - 1) * I) (j * I) ltac:(nia)).
    assert (1 <= ss_right (t_ts t) (j * I))%nat by (destruct (t_ts t) as [|x l]; [easy|]; cbn [hd] in ST; cbn [ss_right]; destruct (Z.leb_spec x (j * I)); [lia|nia]).
    apply bar_l; lia. }
  assert (Last : (hi - 1) * I < hd 0 (t_ts u)).
  { pose proof (cdiv_spec (f64 (last (t_ts t) 0)) I ltac:(lia)) as CS. change (cdiv (f64 (last (t_ts t) 0)) I) with hi in CS. pose proof (hd_le_last _ Hne Ha).
    destruct (Z.le_gt_cases (last (t_ts t) 0) ((hi - 1) * I)) as [C|]; [|lia].
    assert (B : (hi - 1) * I < 2 ^ 61). { pose proof (f64_modern_range (last (t_ts t) 0) ltac:(lia)). lia. }
    pose proof (f64_grid (last (t_ts t) 0) (hi - 1) I HI DI ltac:(lia) C B). lia. }
  split; [|split].
  - rewrite (zrange_app (lo + 1) hi (hi + 1)) by lia. assert (E1 : zrange hi (hi + 1) = [hi]) by (unfold zrange; replace (Z.to_nat (hi + 1 - hi)) with 1%nat by lia; cbn; f_equal; lia).
    rewrite E1, map_app. cbn [map]. rewrite removelast_last. rewrite (zrange_app (lo + 1) hi (hi' + 1)) by lia. rewrite map_app. eexists. f_equal.
    apply map_ext_in. intros j Hj. apply Base.in_zrange in Hj. apply Same; nia.
  - rewrite !map_length, !zrange_length. lia.
  - intros i d Hi HL. rewrite map_length, zrange_length in Hi.
    assert (NF : forall (v : trades) h, (i < Z.to_nat (h + 1 - (lo + 1)))%nat -> nth i (map (bar_at I v) (zrange (lo + 1) (h + 1))) d = bar_at I v (lo + 1 + Z.of_nat i)).
    { intros v h Hh. unfold zrange. rewrite map_map. rewrite (nth_indep _ d ((fun x => bar_at I v (lo + 1 + Z.of_nat x)) 0%nat)) by (rewrite map_length, seq_length; exact Hh).
      rewrite (map_nth (fun x => bar_at I v (lo + 1 + Z.of_nat x))), seq_nth by exact Hh. reflexivity. }
    rewrite NF in HL by exact Hi. rewrite !NF by lia. apply Same; [lia|exact HL].
Qed.
Definition x8_B : Z := 1698796800 * 1000000000.
Definition x8_I : Z := 1000000000.
Definition x8_a : trades := mkTr (map (fun d => x8_B + d) [100; 1700000000; 2600000000]) [103; 104; 100]%Q [5; 1; 2]%Q (Some [-1; 1; -1]).
Definition x8_b : trades := mkTr (map (fun d => x8_B + d) [2700000000; 4600000000]) [107; 101]%Q [5; 3]%Q (Some [1; 1]).
Example C178_time_bars_example : exists f g, time_bars (fun q => q) x8_I x8_a = Ok f /\ time_bars (fun q => q) x8_I (joined x8_a x8_b) = Ok g /\
  starts (removelast f) g /\ length f = 3%nat /\ length g = 5%nat /\ map (fun x => b_high (snd x)) f = [103; 104; 100]%Q /\ map (fun x => b_high (snd x)) g = [103; 104; 107; 107; 101]%Q.
Proof.
  eexists. eexists. split; [vm_compute; reflexivity|]. split; [vm_compute; reflexivity|]. split; [|repeat split; vm_compute; reflexivity].
  refine (proj1 (C178_time_bars (fun q => q) x8_I x8_a x8_b _ _ _ _ _ _ _ _ _)).
  - vm_compute. discriminate.
  - exists 1953125. reflexivity.
  - split; [discriminate|split; [reflexivity|split; [reflexivity|split; [apply ascZ_check; vm_compute; reflexivity|vm_compute; split; congruence]]]].
  - split; [discriminate|split; [reflexivity|split; [reflexivity|split; [apply ascZ_check; vm_compute; reflexivity|vm_compute; split; congruence]]]].
  - discriminate.
  - vm_compute. reflexivity.
  - vm_compute. reflexivity.
Qed.

(** Columns computed from the rows by functions that do not look ahead, one after the other or side by side. *)
Theorem C178_features : forall (R B C : Type) (f : list R -> list B) (g : list B -> list C) (h : list R -> list C) (x y : list R), causal f -> causal g -> causal h -> starts x y ->
  starts (f x) (f y) /\ starts (g (f x)) (g (f y)) /\ causal (fun r => g (f r)) /\ causal (fun r => combine (f r) (h r)).
Proof.
  intros R B C f g h x y Cf Cg Ch S. split; [now apply causal_starts|]. split; [apply causal_starts; [exact Cg|]; now apply causal_starts|]. split.
  - intros a b. destruct (Cf a b) as [L E]. pose proof (causal_starts g (f a) (f (a ++ b)) Cg) as G. destruct (Cg (f a) []) as [LG _].
    split; [now rewrite LG|]. rewrite <- L, <- LG. apply starts_firstn. apply G. apply starts_firstn. now rewrite L.
  - intros a b. destruct (Cf a b) as [L E]. destruct (Ch a b) as [L' E']. split; [rewrite combine_length; lia|].
    replace (length a) with (length (combine (f a) (h a))) by (rewrite combine_length; lia). apply starts_firstn.
    apply starts_combine; [lia| |]; apply starts_firstn; [now rewrite L|now rewrite L'].
Qed.
Example C178_features_example : starts (sma (map (fun r => b_close (snd r)) [(1, mkOhlcv 1 2 1 2 1 1 1 1); (2, mkOhlcv 2 3 2 3 1 1 1 1)]) 2)
  (sma (map (fun r : Z * ohlcv => b_close (snd r)) [(1, mkOhlcv 1 2 1 2 1 1 1 1); (2, mkOhlcv 2 3 2 3 1 1 1 1); (3, mkOhlcv 3 4 3 7 1 1 1 1)]) 2).
Proof.
  refine (causal_starts (fun r : list (Z * ohlcv) => sma (map (fun r => b_close (snd r)) r) 2) _ _ _ _).
  - apply (C147_averages (Z * ohlcv) (fun r => b_close (snd r)) (fun _ => None) 2%nat 1).
  - eexists [_]. reflexivity.
Qed.

(** Events of the CUSUM filter on the bars so far. *)
Theorem C178_events : forall (ln : Q -> Q) (x y : list Q) (th th' : list (option Q)) (evs evs' : list nat),
  starts x y -> starts th th' -> length th = length x -> length th' = length y ->
  cusum_filter ln x th = Ok evs -> cusum_filter ln y th' = Ok evs' -> starts evs evs' /\ forall i, In i evs' <-> In i evs \/ (In i evs' /\ (length x <= i)%nat).
Proof.
  intros ln x y th th' evs evs' Sx St Lx Ly E1 E2. assert (L2 : (2 <= length x)%nat). { unfold cusum_filter in E1. destruct (Nat.leb_spec (length x) 1); [discriminate|lia]. }
  pose proof (cusum_filter_prefix ln y th' (length x) evs' Ly (conj L2 (starts_length _ _ Sx)) E2) as P.
  rewrite (proj1 (starts_firstn x y) Sx) in P. rewrite <- Lx in P at 1. rewrite (proj1 (starts_firstn th th') St) in P. rewrite P in E1. injection E1 as <-.
  assert (SS : StronglySorted lt evs').
  { unfold cusum_filter in E2. destruct (length y <=? 1)%nat; [discriminate|]. destruct (_ && _)%bool; [discriminate|]. injection E2 as <-.
    destruct (idx_fold_sorted (cusum_filter_step ln y (expand_threshold (length y) th')) cs_idx (flt_app ln y _) 1 (length y - 1) (mkCS [] 0 0)) as (e & -> & Se & _). exact Se. }
  destruct (sorted_split (length x) evs' SS) as (r & E & Hr). split; [exists r; exact E|].
  intro i. split; [|intros [H|[H _]]; [apply filter_In in H; tauto|exact H]]. intro H. destruct (Nat.lt_ge_cases i (length x)); [left; apply filter_In; split; [exact H|now apply Nat.ltb_lt]|right; auto].
Qed.

(** Labels: an event whose window ends before the next bar keeps its label, return, touch and weight. *)
Definition starts_sides (a b : option (list Z)) : Prop := starts_opt a b.
Theorem C178_labels : forall (ln : Q -> Q) (rnd : Z -> Z), monotone rnd ->
  forall ts ts' close close' evs evs' tg tg' sd sd' bottom top v min_close min_ret outs outs' k d,
  ascZ ts' -> starts ts ts' -> starts close close' -> starts evs evs' -> starts tg tg' -> starts_sides sd sd' ->
  triple_barrier ln rnd ts close evs tg bottom top (Some v) min_close sd min_ret = Ok outs ->
  triple_barrier ln rnd ts' close' evs' tg' bottom top (Some v) min_close sd' min_ret = Ok outs' ->
  (k < length evs)%nat -> (nth k evs 0%nat < length ts)%nat ->
  (forall j, (length ts <= j < length ts')%nat -> rnd (rnd (nth (nth k evs 0%nat) ts 0) + v) < rnd (nth j ts' 0)) ->
  nth k outs' d = nth k outs d.
Proof.
  intros ln rnd Hr ts ts' close close' evs evs' tg tg' sd sd' bottom top v mc mr outs outs' k d Ha St Sc Se Sg Ss H1 H2 Hk He Hw.
  destruct (tb_nth ln rnd ts close evs tg bottom top (Some v) mc sd mr outs k d H1) as [L1 N1]. destruct (tb_nth ln rnd ts' close' evs' tg' bottom top (Some v) mc sd' mr outs' k d H2) as [L2 N2].
  pose proof (starts_length _ _ Se) as LE. rewrite N1 by exact Hk. rewrite N2 by lia.
  assert (Lg : length tg = length evs /\ length close = length ts /\ forall l, sd = Some l -> length l = length evs).
  { unfold triple_barrier in H1. destruct (v <=? 0); [discriminate|]. destruct (Qltb mr 0); [discriminate|]. destruct (Nat.eqb_spec (length ts) (length close)); [|discriminate].
    destruct (Nat.eqb_spec (length evs) (length tg)); [|discriminate]. cbn [negb] in H1. destruct (length evs =? 0)%nat; [discriminate|]. split; [lia|split; [lia|]]. intros l ->.
    destruct (Nat.eqb_spec (length evs) (length l)); [lia|discriminate]. }
  destruct Lg as (Lg & Lc & Lsd). rewrite (starts_nth evs evs' 0%nat k Se Hk), (starts_nth tg tg' 0%Q k Sg) by lia.
  assert (Em : match sd' with Some _ => true | None => false end = match sd with Some _ => true | None => false end) by (destruct sd, sd'; cbn in Ss; tauto).
  assert (Es : match sd' with Some l => inject_Z (nth k l 0) | None => 1%Q end = match sd with Some l => inject_Z (nth k l 0) | None => 1%Q end).
  { destruct sd as [l|], sd' as [l'|]; cbn in Ss; try tauto. rewrite (starts_nth l l' 0 k Ss); [reflexivity|]. rewrite (Lsd l eq_refl). exact Hk. }
  unfold side_of, meta. rewrite Em, Es. destruct St as [z ->]. destruct Sc as [z' ->]. symmetry.
  assert (Hat : ascZ ts). { intros i j Hij. pose proof (Ha i j) as A. rewrite app_length in A. specialize (A ltac:(lia)). rewrite !app_nth1 in A by lia. exact A. }
  apply (event_causal ln rnd Hr ts (ts ++ z) close (close ++ z') (nth k evs 0%nat) (nth k tg 0%Q) bottom top v mc _ _ mr (length ts)); auto.
  - rewrite app_length. lia.
  - now rewrite first_app, firstn_all.
  - rewrite <- Lc. now rewrite first_app, firstn_all.
  - intros j Hj. lia.
Qed.
Example C178_labels_example : exists outs outs',
  let x := [100; 101; 99; 98; 103; 104]%Q in let y := [101; 90]%Q in
  cusum_filter (fun q => q - 1)%Q x (repeat (Some 0) 6)%Q = Ok [1; 2; 3; 4; 5]%nat /\ cusum_filter (fun q => q - 1)%Q (x ++ y) (repeat (Some 0) 8)%Q = Ok [1; 2; 3; 4; 5; 6; 7]%nat /\
  triple_barrier (fun q => q) f64 [0; 1; 2; 3; 4; 5] x [1; 2; 4]%nat [2; 2; 2]%Q (Fin 1) (Fin 1) (Some 2) 0 None 0 = Ok outs /\
  triple_barrier (fun q => q) f64 [0; 1; 2; 3; 4; 5; 6; 7] (x ++ y) [1; 2; 4; 5]%nat [2; 2; 2; 2]%Q (Fin 1) (Fin 1) (Some 2) 0 None 0 = Ok outs' /\
  (forall k d, (k < 2)%nat -> nth k outs' d = nth k outs d) /\ map tb_label outs = [-1; 1; 1] /\ map tb_label outs' = [-1; 1; -1; -1].
Proof.
  eexists. eexists. cbv zeta. split; [vm_compute; reflexivity|]. split; [vm_compute; reflexivity|]. split; [vm_compute; reflexivity|]. split; [vm_compute; reflexivity|].
  split; [|split; vm_compute; reflexivity]. intros k d Hk.
  refine (C178_labels (fun q => q) f64 f64_mono [0; 1; 2; 3; 4; 5] [0; 1; 2; 3; 4; 5; 6; 7] [100; 101; 99; 98; 103; 104]%Q ([100; 101; 99; 98; 103; 104] ++ [101; 90])%Q
    [1; 2; 4]%nat [1; 2; 4; 5]%nat [2; 2; 2]%Q [2; 2; 2; 2]%Q None None (Fin 1) (Fin 1) 2 0 0 _ _ k d _ _ _ _ _ Logic.I _ _ _ _ _).
  - apply ascZ_check. reflexivity.
  - exists [6; 7]. reflexivity.
  - exists [101; 90]%Q. reflexivity.
  - exists [5%nat]. reflexivity.
  - exists [2%Q]. reflexivity.
  - vm_compute. reflexivity.
  - vm_compute. reflexivity.
  - cbn. lia.
  - destruct k as [|[|k]]; cbn; lia.
  - intros j Hj. cbn in Hj. destruct k as [|[|k]]; [| |lia]; (destruct j as [|[|[|[|[|[|[|[|j]]]]]]]]; try lia; vm_compute; reflexivity).
Qed.

(** From trades to labels: bars of activity builders, thresholds and targets that do not look ahead, events of the CUSUM filter, labels of the triple barrier. Every
    event found in the trades so far is found in all trades, and if its window ends before the next bar its label is the same. *)
Theorem C178_pipeline : forall (ln log1p : Q -> Q) (rnd : Z -> Z) (t u : trades) (k k' : kit) (thr : list (Z * ohlcv) -> list (option Q)) (tgt : list (Z * ohlcv) -> list Q)
    f g evs evs' bottom top v min_close min_ret outs outs' i d,
  monotone rnd -> tidy t -> tidy u -> same_builder t u k k' -> causal thr -> causal tgt ->
  fst (build_ohlcv ln (fresh k t)) = Ok f -> fst (build_ohlcv ln (fresh k' (joined t u))) = Ok g -> ascZ (map fst g) ->
  cusum_filter ln (map (fun r => b_close (snd r)) f) (thr f) = Ok evs -> cusum_filter ln (map (fun r => b_close (snd r)) g) (thr g) = Ok evs' ->
  triple_barrier ln rnd (map fst f) (map (fun r => b_close (snd r)) f) evs (map (fun e => nth e (tgt f) 0%Q) evs) bottom top (Some v) min_close None min_ret = Ok outs ->
  triple_barrier ln rnd (map fst g) (map (fun r => b_close (snd r)) g) evs' (map (fun e => nth e (tgt g) 0%Q) evs') bottom top (Some v) min_close None min_ret = Ok outs' ->
  starts evs evs' /\
  ((i < length evs)%nat ->
   (forall j, (length f <= j < length g)%nat -> rnd (rnd (fst (nth (nth i evs 0%nat) f d)) + v) < rnd (fst (nth j g d))) ->
   forall o, nth i outs' o = nth i outs o).
Proof.
  intros ln log1p rnd t u k k' thr tgt f g evs evs' bottom top v mc mr outs outs' i d Hr Ht Hu SB Ct Cg Ef Eg Ha E1 E2 L1 L2.
  assert (SF : starts f g).
  { pose proof (C178_builders ln log1p t u k k' COhlcv COhlcv (ROhlcv f) (ROhlcv g) Ht Hu SB sc_ohlcv) as H. cbn [exec] in H. unfold tag in H. cbn [fst] in H.
    rewrite Ef, Eg in H. exact (H eq_refl eq_refl). }
  destruct (Ct f []) as [LT _]. destruct (Ct g []) as [LT' _]. destruct (Cg f []) as [LG _].
  destruct (C178_events ln _ _ (thr f) (thr g) evs evs' (starts_map _ _ _ SF) (causal_starts thr f g Ct SF) ltac:(now rewrite map_length) ltac:(now rewrite map_length) E1 E2) as [SE _].
  split; [exact SE|]. intros Hi Hw o.
  assert (Bd : forall e, In e evs -> (e < length f)%nat).
  { unfold cusum_filter in E1. destruct (_ <=? 1)%nat eqn:D1; [discriminate|]. destruct (_ && _)%bool; [discriminate|]. injection E1 as <-. apply Nat.leb_gt in D1. rewrite map_length in D1.
    destruct (idx_fold_sorted (cusum_filter_step ln (map (fun r => b_close (snd r)) f) (expand_threshold (length (map (fun r => b_close (snd r)) f)) (thr f))) cs_idx (flt_app ln _ _) 1
      (length (map (fun r => b_close (snd r)) f) - 1) (mkCS [] 0 0)) as (e & -> & _ & He). cbn [app cs_idx]. intros e0 H0. specialize (He e0 H0). rewrite map_length in He. lia. }
  assert (SG : starts (map (fun e => nth e (tgt f) 0%Q) evs) (map (fun e => nth e (tgt g) 0%Q) evs')).
  { destruct SE as [r ->]. rewrite map_app. eexists. f_equal. apply map_ext_in. intros e He. apply starts_nth; [now apply causal_starts|]. rewrite LG. now apply Bd. }
  assert (Fst : forall l e, (e < length l)%nat -> nth e (map fst l) 0 = fst (nth e l d)) by (intros l e He; rewrite (nth_indep _ 0 (fst d)) by (rewrite map_length; exact He); apply (map_nth fst)).
  assert (Be : (nth i evs 0%nat < length f)%nat) by (apply Bd, nth_In, Hi).
  refine (C178_labels ln rnd Hr _ _ _ _ evs evs' _ _ None None bottom top v mc mr outs outs' i o Ha (starts_map _ _ _ SF) (starts_map _ _ _ SF) SE SG Logic.I L1 L2 Hi _ _).
  - rewrite map_length. exact Be.
  - intros j Hj. rewrite !map_length in Hj. rewrite !Fst by lia. apply Hw. exact Hj.
Qed.
Definition x8_thr (r : list (Z * ohlcv)) : list (option Q) := map (fun b => Some ((b_high (snd b) - b_low (snd b)) / 100)%Q) r.
Definition x8_tgt (r : list (Z * ohlcv)) : list Q := map (fun b => (b_high (snd b) / b_low (snd b))%Q) r.
Lemma causal_map {R B} (h : R -> B) : causal (map h).
Proof. intros x y. split; [apply map_length|]. rewrite map_app. rewrite <- (map_length h x) at 1. apply first_app. Qed.
Definition x8_ln (q : Q) : Q := (q - 1)%Q.
Definition x8_p : trades := mkTr [1; 2; 3; 4; 5; 6] [100; 101; 99; 102; 103; 99]%Q [1; 1; 1; 1; 1; 1]%Q (Some [1; 1; -1; 1; 1; -1]).
Definition x8_q : trades := mkTr [9; 10; 11] [120; 80; 104]%Q [4; 1; 1]%Q (Some [-1; 1; 1]).
Example C178_pipeline_example : exists f g evs evs' outs outs',
  fst (build_ohlcv x8_ln (fresh (KTick 1) x8_p)) = Ok f /\ fst (build_ohlcv x8_ln (fresh (KTick 1) (joined x8_p x8_q))) = Ok g /\
  cusum_filter x8_ln (map (fun r => b_close (snd r)) f) (x8_thr f) = Ok evs /\ cusum_filter x8_ln (map (fun r => b_close (snd r)) g) (x8_thr g) = Ok evs' /\
  triple_barrier x8_ln f64 (map fst f) (map (fun r => b_close (snd r)) f) evs (map (fun e => nth e (x8_tgt f) 0%Q) evs) (Fin 1) (Fin 1) (Some 2) 0 None 0 = Ok outs /\
  triple_barrier x8_ln f64 (map fst g) (map (fun r => b_close (snd r)) g) evs' (map (fun e => nth e (x8_tgt g) 0%Q) evs') (Fin 1) (Fin 1) (Some 2) 0 None 0 = Ok outs' /\
  evs = [1; 2; 3; 4]%nat /\ evs' = [1; 2; 3; 4; 5; 6; 7]%nat /\ (forall o, nth 1 outs' o = nth 1 outs o).
Proof.
  do 6 eexists. split; [vm_compute; reflexivity|]. split; [vm_compute; reflexivity|]. split; [vm_compute; reflexivity|]. split; [vm_compute; reflexivity|].
  split; [vm_compute; reflexivity|]. split; [vm_compute; reflexivity|]. split; [reflexivity|]. split; [reflexivity|].
  assert (TP : tidy x8_p /\ tidy x8_q) by (split; (split; [discriminate|split; [reflexivity|split; [reflexivity|eexists; split; reflexivity]]])).
  refine (proj2 (C178_pipeline x8_ln x8_ln f64 x8_p x8_q (KTick 1) (KTick 1) x8_thr x8_tgt _ _ _ _ (Fin 1) (Fin 1) 2 0 0 _ _ 1%nat (0, mkOhlcv 0 0 0 0 0 0 0 0) f64_mono (proj1 TP) (proj2 TP) (sb_tick _ _ _)
    (causal_map _) (causal_map _) _ _ _ _ _ _ _) _ _).
  - vm_compute. reflexivity.
  - vm_compute. reflexivity.
  - apply ascZ_check. vm_compute. reflexivity.
  - vm_compute. reflexivity.
  - vm_compute. reflexivity.
  - vm_compute. reflexivity.
  - vm_compute. reflexivity.
  - cbn. lia.
  - intros j Hj. cbn in Hj. destruct j as [|[|[|[|[|[|[|[|j]]]]]]]]; try lia; vm_compute; reflexivity.
Qed.

(** ** What does change *)
(** The last time bar, when its interval has not passed. *)
Theorem C178_last_time_bar_refuted : exists ln I t u f g d, time_bars ln I t = Ok f /\ time_bars ln I (joined t u) = Ok g /\ nth (length f - 1) g d <> nth (length f - 1) f d.
Proof.
  exists (fun q => q), x8_I, x8_a, x8_b. eexists. eexists. exists (0, mkOhlcv 0 0 0 0 0 0 0 0). split; [vm_compute; reflexivity|]. split; [vm_compute; reflexivity|].
  intro H. apply (f_equal (fun b => b_high (snd b))) in H. vm_compute in H. discriminate.
Qed.
(** Directional features of the first time bar: the code reads [prices[-1]] and [trade_sides[-1]] as the trade before the first one, so the spread of the first
    bar contains the distance to the last trade of the whole array. *)
Theorem C178_first_time_bar_refuted : exists ln log1p I t u f g d, fst (exec ln log1p (fresh (KTime I) t) CDir) = Ok (RDir f) /\
  fst (exec ln log1p (fresh (KTime I) (joined t u)) CDir) = Ok (RDir g) /\ (2 <= length f)%nat /\ f_max_spread (snd (nth 0 f d)) = 0%Q /\ f_max_spread (snd (nth 0 g d)) = 3%Q.
Proof.
  exists (fun q => q), (fun q => q), x8_I, (mkTr (map (fun d => x8_B + d) [100; 200; 1700000000]) [103; 103; 100]%Q [5; 1; 2]%Q (Some [1; 1; 1])),
    (mkTr (map (fun d => x8_B + d) [2700000000]) [106]%Q [5]%Q (Some [-1])).
  eexists. eexists. eexists (0, mkDir 0 0 0 0 0 0 NaN 0 0 0 0 0 0 0). split; [vm_compute; reflexivity|]. split; [vm_compute; reflexivity|]. split; [cbn; lia|]. split; reflexivity.
Qed.
(** Footprints with an inferred tick size. *)
Theorem C178_inferred_tick_refuted : exists ln log1p t u r r', tidy t /\ tidy u /\ fst (exec ln log1p (fresh (KTick 2) t) (CFoot None 2)) = Ok (RFoot r) /\
  fst (exec ln log1p (fresh (KTick 2) (joined t u)) (CFoot None 2)) = Ok (RFoot r') /\ ~ starts (fd_lv r) (fd_lv r').
Proof.
  exists (fun q => q), (fun q => q), (mkTr [1; 2; 3; 4] [100; 102; 104; 102]%Q [1; 1; 1; 1]%Q (Some [1; 1; 1; 1])), (mkTr [5; 6] [103; 102]%Q [1; 1]%Q (Some [1; 1])). eexists. eexists.
  split; [split; [discriminate|split; [reflexivity|split; [reflexivity|eexists; split; reflexivity]]]|].
  split; [split; [discriminate|split; [reflexivity|split; [reflexivity|eexists; split; reflexivity]]]|].
  split; [vm_compute; reflexivity|]. split; [vm_compute; reflexivity|]. intros [c E]. vm_compute in E. discriminate.
Qed.
(** The label of an event whose window is still open. *)
Theorem C178_open_window_refuted : exists ln ts ts' close close' evs tg v o o', starts ts ts' /\ starts close close' /\
  triple_barrier ln f64 ts close evs tg (Fin 1) (Fin 1) (Some v) 0 None 0 = Ok [o] /\ triple_barrier ln f64 ts' close' evs tg (Fin 1) (Fin 1) (Some v) 0 None 0 = Ok [o'] /\
  tb_label o = 1 /\ tb_label o' = -1.
Proof.
  exists (fun q => q), [1; 2], [1; 2; 3], [100; 101]%Q, [100; 101; 95]%Q, [0%nat], [2%Q], 10. eexists. eexists. split; [exists [3]; reflexivity|]. split; [exists [95%Q]; reflexivity|].
  split; [vm_compute; reflexivity|]. split; [vm_compute; reflexivity|]. split; reflexivity.
Qed.

Print Assumptions C178_builders.
Print Assumptions C178_time_bars.
Print Assumptions C178_features.
Print Assumptions C178_events.
Print Assumptions C178_labels.
Print Assumptions C178_pipeline.
Print Assumptions C178_last_time_bar_refuted.
Print Assumptions C178_first_time_bar_refuted.
Print Assumptions C178_inferred_tick_refuted.
Print Assumptions C178_open_window_refuted.
