(** P_pieces.v -- time bars built piece by piece. *)
From Verif Require Import Base M_logic M_bars M_builder S_pieces P_shift P_shift2 P_time P_tbm.
Open Scope Z_scope.

(** ** The bars of a piece in closed form *)
Definition close_at (ts : list Z) (x : Z) : Z := Z.of_nat (ss_right ts x) - 1.
Definition bar_at (I : Z) (t : trades) (j : Z) : Z * ohlcv :=
  (j * I, bar_ohlcv (t_px t) (t_am t) (close_at (t_ts t) ((j - 1) * I)) (close_at (t_ts t) (j * I))).
Definition tick_lo (I : Z) (t : trades) : Z := f64 (hd 0 (t_ts t)) / I.
Definition tick_hi (I : Z) (t : trades) : Z := cdiv (f64 (last (t_ts t) 0)) I.

Lemma time_bars_closed ln I t : 512 <= I -> (512 | I) -> recent I t ->
  tick_lo I t <= tick_hi I t /\
  time_bars ln I t = if tick_lo I t =? tick_hi I t then Raise ValueError
                     else Ok (map (bar_at I t) (zrange (tick_lo I t + 1) (tick_hi I t + 1))).
Proof.
  intros HI DI (Hne & Lp & La & Ha & H0 & HN). pose proof (hd_le_last _ Hne Ha) as Hle.
  destruct (modern_clock (hd 0 (t_ts t)) (last (t_ts t) 0) I HI DI H0 Hle HN) as [AK E].
  fold (tick_lo I t) in AK, E. fold (tick_hi I t) in AK, E. set (a := tick_lo I t) in *. set (k := tick_hi I t) in *.
  split; [exact AK|].
  unfold time_bars, build_ohlcv, set_close, fresh. cbn [bd_close bd_kit bd_tr comp_bar_close]. unfold time_bar_indexer. cbv zeta.
  rewrite E. set (N := Z.to_nat (k + 1 - a)). unfold comp_bar_ohlcv. rewrite Lp, La, Nat.eqb_refl. cbn [negb].
  rewrite !map_length, seq_length. destruct (Z.eqb_spec a k) as [Eak|Nak].
  - replace N with 1%nat by (unfold N; lia). reflexivity.
  - assert (HN1 : (2 <= N)%nat) by (unfold N; lia).
    replace (N <? 2)%nat with false by (symmetry; apply Nat.ltb_ge; lia).
    unfold frame. rewrite map_length, seq_length.
    assert (Tl : tl (map (fun i => (a + Z.of_nat i) * I) (seq 0 N)) = map (fun i => (a + 1 + Z.of_nat i) * I) (seq 0 (N - 1))).
    { destruct N as [|n]; [lia|]. cbn [seq map tl]. replace (S n - 1)%nat with n by lia. rewrite <- seq_shift, map_map. apply map_ext. intro i. f_equal. lia. }
    rewrite Tl, map_length, seq_length, Nat.eqb_refl. cbn [fst snd bd_kit].
    replace (freq_ok (KTime I) (map (fun i => (a + 1 + Z.of_nat i) * I) (seq 0 (N - 1)))) with true.
    2:{ symmetry. unfold freq_ok. apply forallb_forall. intros i Hi. rewrite map_length, seq_length in Hi. apply in_seq in Hi.
        apply Z.eqb_eq. rewrite (nth_indep _ 0 ((a + 1 + Z.of_nat 0) * I)) by (rewrite map_length, seq_length; lia).
        rewrite (map_nth (fun i => (a + 1 + Z.of_nat i) * I)), seq_nth by lia.
        destruct N as [|[|n]]; [lia|lia|]. cbn [Nat.sub seq map hd]. lia. }
    f_equal. unfold zrange. replace (Z.to_nat (k + 1 - (a + 1))) with (N - 1)%nat by (unfold N; lia).
    set (cl := map (fun x => Z.of_nat (ss_right (t_ts t) x) - 1) (map (fun i => (a + Z.of_nat i) * I) (seq 0 N))).
    assert (NC : forall i, (i < N)%nat -> nth i cl 0 = close_at (t_ts t) ((a + Z.of_nat i) * I)).
    { intros i Hi. unfold cl. rewrite map_map.
      rewrite (nth_indep _ 0 ((fun x => Z.of_nat (ss_right (t_ts t) ((a + Z.of_nat x) * I)) - 1) 0%nat)) by (rewrite map_length, seq_length; lia).
      rewrite (map_nth (fun x => Z.of_nat (ss_right (t_ts t) ((a + Z.of_nat x) * I)) - 1)), seq_nth by lia. reflexivity. }
    clearbody cl. rewrite map_map. assert (HM : (N - 1 <= N - 1)%nat) by lia. revert HM. generalize (N - 1)%nat at 1 3 4 5 as m.
    intros m Hm. assert (G : forall s, (s + m <= N - 1)%nat ->
      combine (map (fun i => (a + 1 + Z.of_nat i) * I) (seq s m)) (map (fun i => bar_ohlcv (t_px t) (t_am t) (nth i cl 0) (nth (S i) cl 0)) (seq s m)) =
      map (fun x => bar_at I t (a + 1 + Z.of_nat x)) (seq s m)).
    { clear Hm. induction m as [|m IH]; intros s Hs; [reflexivity|]. cbn [seq map combine]. rewrite IH by lia. f_equal. unfold bar_at.
      rewrite !NC by lia. f_equal. replace (a + 1 + Z.of_nat s - 1) with (a + Z.of_nat s) by lia.
      replace (a + Z.of_nat (S s)) with (a + 1 + Z.of_nat s) by lia. reflexivity. }
    apply (G 0%nat). lia.
Qed.

(** ** Ticks and trades *)
Lemma f64_grid x m I : 512 <= I -> (512 | I) -> 2 ^ 60 <= x < 2 ^ 61 -> x <= m * I -> m * I < 2 ^ 61 -> f64 x <= m * I.
Proof.
  intros HI [q ->] Hx L U. rewrite f64_modern by exact Hx. replace (m * (q * 512)) with (m * (q * 2) * 256) by ring.
  apply Z.mul_le_mono_nonneg_r; [lia|]. apply rne_le; [lia|]. lia.
Qed.
Lemma grid_f64 x m I : (512 | I) -> 2 ^ 60 <= x < 2 ^ 61 -> m * I <= x -> m * I <= f64 x.
Proof.
  intros [q ->] Hx L. rewrite f64_modern by exact Hx. replace (m * (q * 512)) with (m * (q * 2) * 256) by ring.
  apply Z.mul_le_mono_nonneg_r; [lia|]. apply rne_ge; [lia|]. lia.
Qed.
(** The last tick is not before the last trade; the first tick is before the first trade. *)
Lemma hi_covers I t : 512 <= I -> (512 | I) -> recent I t -> (last (t_ts t) 0 mod I = 0 \/ 128 < last (t_ts t) 0 mod I) ->
  last (t_ts t) 0 <= tick_hi I t * I.
Proof.
  intros HI DI (Hne & _ & _ & Ha & H0 & HN) M. pose proof (hd_le_last _ Hne Ha) as Hle. set (x := last (t_ts t) 0) in *.
  assert (Hx : 2 ^ 60 <= x < 2 ^ 61) by lia. destruct (f64_modern_range x Hx) as [_ R].
  unfold tick_hi. fold x. pose proof (cdiv_spec (f64 x) I ltac:(lia)) as B. set (k := cdiv (f64 x) I) in *.
  pose proof (Z.div_mod x I ltac:(lia)) as DM. pose proof (Z.mod_pos_bound x I ltac:(lia)) as MB.
  set (q := x / I) in *. set (r := x mod I) in *. clearbody k q r.
  destruct M as [M|M].
  - assert (q * I <= f64 x) by (apply grid_f64; [exact DI|exact Hx|lia]). nia.
  - assert (q * I < k * I) by nia. assert (q + 1 <= k) by nia. nia.
Qed.
Lemma lo_before I t : 512 <= I -> (512 | I) -> recent I t -> 0 < hd 0 (t_ts t) mod I -> hd 0 (t_ts t) mod I + 128 < I ->
  tick_lo I t * I < hd 0 (t_ts t).
Proof.
  intros HI DI (Hne & _ & _ & Ha & H0 & HN) M1 M2. pose proof (hd_le_last _ Hne Ha) as Hle. set (x := hd 0 (t_ts t)) in *.
  assert (Hx : 2 ^ 60 <= x < 2 ^ 61) by lia. destruct (f64_modern_range x Hx) as [_ R].
  unfold tick_lo. fold x. pose proof (Z.div_mod (f64 x) I ltac:(lia)) as D1. pose proof (Z.mod_pos_bound (f64 x) I ltac:(lia)) as B1.
  pose proof (Z.div_mod x I ltac:(lia)) as DM. pose proof (Z.mod_pos_bound x I ltac:(lia)) as MB.
  set (q := x / I) in *. set (r := x mod I) in *. set (a := f64 x / I) in *. set (s := f64 x mod I) in *. clearbody a s q r.
  assert (a < q + 1) by (apply (Z.mul_lt_mono_pos_r I); nia). nia.
Qed.
Lemma hi_le_m I t m : 512 <= I -> (512 | I) -> recent I t -> last (t_ts t) 0 <= m * I -> m * I < 2 ^ 61 -> tick_hi I t <= m.
Proof.
  intros HI DI (Hne & _ & _ & Ha & H0 & HN) L U. pose proof (hd_le_last _ Hne Ha) as Hle.
  pose proof (f64_grid (last (t_ts t) 0) m I HI DI ltac:(lia) L U) as F.
  unfold tick_hi. pose proof (cdiv_spec (f64 (last (t_ts t) 0)) I ltac:(lia)). nia.
Qed.
Lemma m_le_lo I t m : 512 <= I -> (512 | I) -> recent I t -> m * I <= hd 0 (t_ts t) -> m <= tick_lo I t.
Proof.
  intros HI DI (Hne & _ & _ & Ha & H0 & HN) L. pose proof (hd_le_last _ Hne Ha) as Hle.
  pose proof (grid_f64 (hd 0 (t_ts t)) m I DI ltac:(lia) L) as F. unfold tick_lo. apply Z.div_le_lower_bound; lia.
Qed.
(** The first trade is not after the second tick. *)
Lemma second_tick I t : 512 <= I -> (512 | I) -> recent I t -> hd 0 (t_ts t) <= (tick_lo I t + 1) * I.
Proof.
  intros HI DI (Hne & _ & _ & Ha & H0 & HN). pose proof (hd_le_last _ Hne Ha) as Hle. set (x := hd 0 (t_ts t)) in *.
  assert (Hx : 2 ^ 60 <= x < 2 ^ 61) by lia.
  destruct (Z.le_gt_cases x ((tick_lo I t + 1) * I)) as [|C]; [assumption|].
  assert (G : (tick_lo I t + 1) * I <= f64 x) by (apply grid_f64; [exact DI|exact Hx|lia]).
  unfold tick_lo in *. fold x in G |- *. pose proof (Z.div_mod (f64 x) I ltac:(lia)). pose proof (Z.mod_pos_bound (f64 x) I ltac:(lia)). nia.
Qed.

(** ** Positions in the joined list *)
Lemma ss_left_part l r x : (r <> [] -> x < hd 0 r) -> ss_right (l ++ r) x = ss_right l x.
Proof.
  intro H. induction l as [|y l IH]; cbn [app ss_right].
  - destruct r as [|y r]; [reflexivity|]. cbn [ss_right]. specialize (H ltac:(discriminate)). cbn in H. destruct (Z.leb_spec y x); [lia|reflexivity].
  - now rewrite IH.
Qed.
Lemma ss_right_part l r x : (forall y, In y l -> y <= x) -> ss_right (l ++ r) x = (length l + ss_right r x)%nat.
Proof.
  induction l as [|y l IH]; intro H; cbn [app ss_right length]; [reflexivity|].
  destruct (Z.leb_spec y x) as [|C]; [|specialize (H y (or_introl eq_refl)); lia]. rewrite IH; [reflexivity|]. intros z Hz. apply H. now right.
Qed.
Lemma asc_in_last l y : ascZ l -> In y l -> y <= last l 0.
Proof.
  intros Ha Hy. assert (L : forall l : list Z, l <> [] -> last l 0 = nth (length l - 1) l 0).
  { clear. induction l as [|x l IH]; intro H; [easy|]. destruct l as [|y l]; [reflexivity|].
    change (last (y :: l) 0 = nth (length (y :: l)) (x :: y :: l) 0). rewrite IH by discriminate.
    cbn [length nth]. replace (S (length l) - 1)%nat with (length l) by lia. reflexivity. }
  apply (In_nth _ _ 0) in Hy. destruct Hy as [i [Hi <-]]. rewrite L by (intros ->; cbn in Hi; lia). apply Ha. lia.
Qed.
Lemma ss_right_mono_ l x y : x <= y -> (ss_right l x <= ss_right l y)%nat.
Proof. intro H. induction l as [|z l IH]; cbn [ss_right]; [lia|]. destruct (Z.leb_spec z x), (Z.leb_spec z y); lia. Qed.

(** ** Bars of the joined list *)
Lemma zget_l {A} (d : A) l r i : 0 <= i < Z.of_nat (length l) -> zget d (l ++ r) i = zget d l i.
Proof. intro H. rewrite !zget_nonneg by lia. apply app_nth1. lia. Qed.
Lemma zget_r {A} (d : A) l r i : 0 <= i -> zget d (l ++ r) (Z.of_nat (length l) + i) = zget d r i.
Proof. intro H. rewrite !zget_nonneg by lia. rewrite app_nth2 by lia. f_equal. lia. Qed.
Lemma fold_ext_in {A B} (f g : A -> B -> A) l : (forall a b, In b l -> f a b = g a b) -> forall a, fold_left f l a = fold_left g l a.
Proof. induction l as [|b l IH]; intros H a; cbn [fold_left]; [reflexivity|]. rewrite (H a b (or_introl eq_refl)). apply IH. intros; apply H. now right. Qed.
Lemma bar_l p q v w s e : length v = length p -> -1 <= s <= e -> 0 <= e < Z.of_nat (length p) ->
  bar_ohlcv (p ++ q) (v ++ w) s e = bar_ohlcv p v s e.
Proof.
  intros L H1 H2. unfold bar_ohlcv. rewrite !(zget_l _ p q e) by lia. destruct (Z.eqb_spec s e) as [->|N]; [reflexivity|]. cbv zeta.
  rewrite (zget_l _ p q (s + 1)) by lia.
  rewrite (fold_ext_in (ohlcv_step (p ++ q) (v ++ w)) (ohlcv_step p v)).
  2:{ intros [[[h l] x] y] j Hj. apply in_zrange in Hj. unfold ohlcv_step. rewrite !zget_l by lia. reflexivity. }
  destruct (fold_left _ _ _) as [[[h l] x] y]. f_equal. destruct (0 <? _); [|reflexivity]. f_equal. apply map_ext_in. intros j Hj. apply in_zrange in Hj.
  apply zget_l. lia.
Qed.
Lemma zrange_off n a b : zrange (n + a) (n + b) = map (fun j => n + j) (zrange a b).
Proof. unfold zrange. rewrite map_map. replace (n + b - (n + a)) with (b - a) by lia. apply map_ext. intro. lia. Qed.
Lemma fold_map {A B C} (f : A -> B -> A) (g : C -> B) l : forall a, fold_left f (map g l) a = fold_left (fun a c => f a (g c)) l a.
Proof. induction l as [|c l IH]; intro a; cbn [map fold_left]; [reflexivity|apply IH]. Qed.
Lemma bar_r p q v w s e : length v = length p -> -1 <= s <= e -> 0 <= e ->
  bar_ohlcv (p ++ q) (v ++ w) (Z.of_nat (length p) + s) (Z.of_nat (length p) + e) = bar_ohlcv q w s e.
Proof.
  intros L H1 H2. unfold bar_ohlcv. rewrite !(zget_r _ p q e) by lia.
  replace (Z.of_nat (length p) + s =? Z.of_nat (length p) + e) with (s =? e) by (apply Bool.eq_iff_eq_true; rewrite !Z.eqb_eq; lia).
  destruct (Z.eqb_spec s e) as [->|N]; [reflexivity|]. cbv zeta.
  replace (Z.of_nat (length p) + s + 1) with (Z.of_nat (length p) + (s + 1)) by lia. rewrite (zget_r _ p q (s + 1)) by lia.
  replace (Z.of_nat (length p) + e + 1) with (Z.of_nat (length p) + (e + 1)) by lia. rewrite zrange_off, fold_map.
  rewrite (fold_ext_in _ (ohlcv_step q w)).
  2:{ intros [[[h l] x] y] j Hj. apply in_zrange in Hj. unfold ohlcv_step. rewrite (zget_r 0%Q p) by lia. rewrite <- L, (zget_r 0%Q v) by lia. reflexivity. }
  destruct (fold_left _ _ _) as [[[h l] x] y]. replace (Z.of_nat (length p) + e - (Z.of_nat (length p) + (s + 1)) + 1) with (e - (s + 1) + 1) by lia.
  f_equal. destruct (0 <? _); [|reflexivity]. f_equal. rewrite map_map. apply map_ext_in. intros j Hj. apply in_zrange in Hj.
  rewrite <- L. apply zget_r. lia.
Qed.

Lemma last_app_ne {A} (l r : list A) d : r <> [] -> last (l ++ r) d = last r d.
Proof.
  intro H. induction l as [|x l IH]; [reflexivity|]. cbn [app last]. destruct (l ++ r) eqn:E; [|exact IH].
  apply app_eq_nil in E. tauto.
Qed.
Lemma last_nth_ {A} (l : list A) d : l <> [] -> last l d = nth (length l - 1) l d.
Proof.
  intro H. induction l as [|x l IH]; [easy|]. destruct l as [|y l]; [reflexivity|].
  change (last (y :: l) d = nth (length (y :: l)) (x :: y :: l) d). rewrite IH by discriminate.
  cbn [length nth]. replace (S (length l) - 1)%nat with (length l) by lia. reflexivity.
Qed.

Section Two.
  Variables (ln : Q -> Q) (I : Z) (t u : trades).
  Hypothesis HI : 512 <= I.
  Hypothesis DI : (512 | I).
  Hypothesis Ht : recent I t.
  Hypothesis Hu : recent I u.
  Hypothesis Hb : tick_between I t u.

  Lemma joined_recent : recent I (joined t u).
  Proof.
    destruct Ht as (N1 & P1 & A1 & S1 & L1 & U1). destruct Hu as (N2 & P2 & A2 & S2 & L2 & U2). destruct Hb as ([m Hm] & _).
    unfold recent. cbn [joined t_ts t_px t_am]. split; [destruct (t_ts t); [easy|discriminate]|].
    rewrite !app_length. split; [lia|]. split; [lia|]. split.
    - intros i j Hij. rewrite app_length in Hij.
      destruct (Nat.lt_ge_cases j (length (t_ts t))) as [Cj|Cj].
      + rewrite !app_nth1 by lia. apply S1. lia.
      + rewrite (app_nth2 _ _ _ Cj). destruct (Nat.lt_ge_cases i (length (t_ts t))) as [Ci|Ci].
        * rewrite app_nth1 by lia. pose proof (asc_in_last (t_ts t) _ S1 (nth_In _ 0 Ci)).
          assert (hd 0 (t_ts u) <= nth (j - length (t_ts t)) (t_ts u) 0).
          { replace (hd 0 (t_ts u)) with (nth 0 (t_ts u) 0) by (destruct (t_ts u); reflexivity). apply S2. lia. }
          lia.
        * rewrite app_nth2 by lia. apply S2. lia.
    - split; [destruct (t_ts t); [easy|exact L1]|]. rewrite last_app_ne by exact N2. exact U2.
  Qed.
  Lemma joined_lo : tick_lo I (joined t u) = tick_lo I t.
  Proof. unfold tick_lo. cbn [joined t_ts]. destruct Ht as (N1 & _). destruct (t_ts t); [easy|reflexivity]. Qed.
  Lemma joined_hi : tick_hi I (joined t u) = tick_hi I u.
  Proof. unfold tick_hi. cbn [joined t_ts]. destruct Hu as (N1 & _). now rewrite last_app_ne. Qed.
  Lemma ticks : tick_hi I t <= tick_lo I u.
  Proof.
    destruct Hb as ([m Hm] & _). pose proof Hu as (N2 & _ & _ & S2 & _ & U2). pose proof (hd_le_last _ N2 S2).
    transitivity m; [apply hi_le_m; auto; lia|apply m_le_lo; auto; lia].
  Qed.
  Lemma cl_first x : x <= tick_lo I u * I -> close_at (t_ts (joined t u)) x = close_at (t_ts t) x.
  Proof.
    intro H. unfold close_at. cbn [joined t_ts]. rewrite ss_left_part; [reflexivity|]. intros _.
    destruct Hb as (_ & _ & M1 & M2). pose proof (lo_before I u HI DI Hu M1 M2). lia.
  Qed.
  Lemma cl_second x : tick_hi I t * I <= x -> close_at (t_ts (joined t u)) x = Z.of_nat (length (t_ts t)) + close_at (t_ts u) x.
  Proof.
    intro H. unfold close_at. cbn [joined t_ts]. rewrite ss_right_part; [lia|]. intros y Hy.
    pose proof Ht as (_ & _ & _ & S1 & _). pose proof (asc_in_last _ _ S1 Hy).
    destruct Hb as (_ & M & _). pose proof (hi_covers I t HI DI Ht M). lia.
  Qed.
  Lemma cl_range (w : trades) x : close_at (t_ts w) x < Z.of_nat (length (t_ts w)).
  Proof. unfold close_at. pose proof (ss_right_le (t_ts w) x). lia. Qed.
  Lemma cl_ge (w : trades) j : recent I w -> tick_lo I w < j -> 0 <= close_at (t_ts w) (j * I).
  Proof.
    intros Hw Hj. pose proof (second_tick I w HI DI Hw). unfold close_at. destruct Hw as (N & _). destruct (t_ts w) as [|y l]; [easy|].
    cbn [hd] in *. cbn [ss_right]. destruct (Z.leb_spec y (j * I)); [lia|nia].
  Qed.
  Lemma cl_step (w : trades) j : -1 <= close_at (t_ts w) ((j - 1) * I) <= close_at (t_ts w) (j * I).
  Proof. unfold close_at. pose proof (ss_right_mono_ (t_ts w) ((j - 1) * I) (j * I) ltac:(nia)). lia. Qed.

  Lemma bar_first j : tick_lo I t < j <= tick_hi I t -> bar_at I (joined t u) j = bar_at I t j.
  Proof.
    intro Hj. unfold bar_at. f_equal. pose proof ticks as T. rewrite !cl_first by nia. cbn [joined t_px t_am].
    pose proof (cl_step t j). pose proof (cl_ge t j Ht ltac:(lia)). pose proof (cl_range t (j * I)).
    destruct Ht as (_ & P1 & A1 & _). apply bar_l; lia.
  Qed.
  Lemma bar_second j : tick_lo I u < j -> bar_at I (joined t u) j = bar_at I u j.
  Proof.
    intro Hj. unfold bar_at. f_equal. pose proof ticks as T. rewrite !cl_second by nia. cbn [joined t_px t_am].
    pose proof (cl_step u j). pose proof (cl_ge u j Hu ltac:(lia)).
    destruct Ht as (_ & P1 & A1 & _). rewrite <- P1. apply bar_r; lia.
  Qed.
  Lemma bar_gap j : tick_hi I t < j <= tick_lo I u ->
    bar_at I (joined t u) j = (j * I, let p := last (t_px t) 0%Q in mkOhlcv p p p p 0 0 0 0).
  Proof.
    intro Hj. unfold bar_at. f_equal.
    assert (C : forall x, tick_hi I t * I <= x -> x <= tick_lo I u * I -> close_at (t_ts (joined t u)) x = Z.of_nat (length (t_ts t)) - 1).
    { intros x X1 X2. rewrite cl_second by exact X1. unfold close_at. destruct Hb as (_ & _ & M1 & M2).
      pose proof (lo_before I u HI DI Hu M1 M2) as B. destruct Hu as (N & _). destruct (t_ts u) as [|y l]; [easy|].
      cbn [hd] in *. cbn [ss_right]. destruct (Z.leb_spec y x); lia. }
    rewrite !C by nia. unfold bar_ohlcv. rewrite Z.eqb_refl. cbv zeta. cbn [joined t_px].
    pose proof Ht as (N1 & P1 & _). assert (1 <= length (t_ts t))%nat by (destruct (t_ts t); [easy|cbn; lia]).
    assert (E : zget 0%Q (t_px t ++ t_px u) (Z.of_nat (length (t_ts t)) - 1) = last (t_px t) 0%Q).
    { rewrite zget_l by lia. rewrite zget_nonneg, last_nth_ by (lia || (intro X; rewrite X in P1; cbn in P1; lia)). f_equal. lia. }
    now rewrite E.
  Qed.

  Lemma pieces_two f g : time_bars ln I t = Ok f -> time_bars ln I u = Ok g ->
    exists n, time_bars ln I (joined t u) = Ok (f ++ quiet I (tick_hi I t * I) (last (t_px t) 0%Q) n ++ g) /\
      Z.of_nat n = tick_lo I u - tick_hi I t /\ tick_lo I t < tick_hi I t /\ tick_lo I u < tick_hi I u /\
      f = map (bar_at I t) (zrange (tick_lo I t + 1) (tick_hi I t + 1)) /\ g = map (bar_at I u) (zrange (tick_lo I u + 1) (tick_hi I u + 1)).
  Proof.
    destruct (time_bars_closed ln I t HI DI Ht) as [L1 ->]. destruct (time_bars_closed ln I u HI DI Hu) as [L2 ->].
    destruct (time_bars_closed ln I (joined t u) HI DI joined_recent) as [L3 E3]. rewrite joined_lo, joined_hi in *. pose proof ticks as T.
    destruct (Z.eqb_spec (tick_lo I t) (tick_hi I t)); [discriminate|]. destruct (Z.eqb_spec (tick_lo I u) (tick_hi I u)); [discriminate|].
    intros [= <-] [= <-]. exists (Z.to_nat (tick_lo I u - tick_hi I t)).
    split; [|repeat split; try lia]. rewrite E3. destruct (Z.eqb_spec (tick_lo I t) (tick_hi I u)); [lia|]. f_equal.
    rewrite (zrange_app (tick_lo I t + 1) (tick_hi I t + 1)) by lia. rewrite (zrange_app (tick_hi I t + 1) (tick_lo I u + 1)) by lia.
    rewrite !map_app. f_equal; [|f_equal].
    - apply map_ext_in. intros j Hj. apply in_zrange in Hj. apply bar_first. lia.
    - unfold quiet, zrange. rewrite map_map. replace (tick_lo I u + 1 - (tick_hi I t + 1)) with (tick_lo I u - tick_hi I t) by lia.
      apply map_ext_in. intros i Hi. apply in_seq in Hi. rewrite bar_gap by lia. cbv zeta. f_equal. lia.
    - apply map_ext_in. intros j Hj. apply in_zrange in Hj. apply bar_second. lia.
  Qed.
End Two.
