(** P_shift.v -- proofs about changes of the clock (C170): bar builders. *)
From Verif Require Import Base M_logic M_bars M_footprint M_trades M_fpdata M_builder S_logic S_builder S_shift P_time.
Open Scope Z_scope.

Lemma nth_map_in {A B} (f : A -> B) l i d d' : (i < length l)%nat -> nth i (map f l) d = f (nth i l d').
Proof. intro H. rewrite (nth_indep _ _ (f d')) by now rewrite map_length. apply map_nth. Qed.

(* ------------------------------------------------------------------ *)
(** ** The builder as a machine *)

Definition pair_relabel (f : Z -> Z) (c : list Z * list Z) : list Z * list Z := (map f (fst c), snd c).
Definition bd_relabel (f : Z -> Z) (b : builder) : builder :=
  mkBd (bd_kit b) (retimed f (bd_tr b)) (option_map (pair_relabel f) (bd_close b)) (bd_hl b).

Section Machine.
  Variables (ln log1p : Q -> Q) (f : Z -> Z) (t : trades) (ok : kit -> Prop).
  Hypothesis Hclose : forall k, ok k ->
    comp_bar_close ln k (retimed f t) =
      (on_ok (pair_relabel f) (fst (comp_bar_close ln k t)), snd (comp_bar_close ln k t)).
  Hypothesis Hok : forall k, ok k -> ok (snd (comp_bar_close ln k t)).
  Hypothesis Hfreq : forall k ix, ok k -> freq_ok k (map f ix) = freq_ok k ix.

  Definition inv (b : builder) : Prop := ok (bd_kit b) /\ bd_tr b = t.

  Lemma set_close_rel b : inv b ->
    set_close ln (bd_relabel f b) =
      (on_ok (pair_relabel f) (fst (set_close ln b)), bd_relabel f (snd (set_close ln b)))
    /\ inv (snd (set_close ln b)).
  Proof.
    intros [K E]. destruct b as [k tr c hl]. cbn [bd_kit bd_tr] in *. subst tr.
    unfold set_close, bd_relabel. cbn [bd_kit bd_tr bd_close bd_hl].
    destruct c as [c|]; cbn [option_map].
    - split; [reflexivity|]. split; [exact K|reflexivity].
    - rewrite (Hclose k K). pose proof (Hok k K) as K'.
      destruct (comp_bar_close ln k t) as [[c|e] k']; cbn [fst snd on_ok] in *; cbn [bd_kit bd_tr bd_close bd_hl option_map];
        (split; [reflexivity|]); split; [exact K'|reflexivity|exact K'|reflexivity].
  Qed.

  Lemma tl_map (l : list Z) : tl (map f l) = map f (tl l).
  Proof. destruct l; reflexivity. Qed.
  Lemma frame_rel {A} cts (rows : list A) : frame (map f cts) rows = on_ok (relabel f) (frame cts rows).
  Proof.
    unfold frame. rewrite tl_map, map_length. destruct (length (tl cts) =? length rows)%nat; [|reflexivity].
    cbn [on_ok]. f_equal. generalize (tl cts) as l. clear. intro l. revert rows.
    induction l as [|x l IH]; intros [|r rows]; cbn; [reflexivity..|]. f_equal. apply IH.
  Qed.

  Lemma ohlcv_rel b : inv b ->
    build_ohlcv ln (bd_relabel f b) =
      (on_ok (relabel f) (fst (build_ohlcv ln b)), bd_relabel f (snd (build_ohlcv ln b)))
    /\ inv (snd (build_ohlcv ln b)).
  Proof.
    intro H. destruct (set_close_rel b H) as [E I]. unfold build_ohlcv. rewrite E.
    destruct (set_close ln b) as [[[cts cix]|e] b']; cbn [fst snd on_ok pair_relabel] in *; [|split; [reflexivity|exact I]].
    replace (t_px (bd_tr (bd_relabel f b'))) with (t_px (bd_tr b')) by reflexivity.
    replace (t_am (bd_tr (bd_relabel f b'))) with (t_am (bd_tr b')) by reflexivity.
    destruct (comp_bar_ohlcv (t_px (bd_tr b')) (t_am (bd_tr b')) cix) as [bars|e]; [|split; [reflexivity|exact I]].
    cbv zeta. rewrite frame_rel. destruct (frame cts bars) as [fr|e]; cbn [on_ok fst snd].
    - cbn [bd_kit]. rewrite tl_map. rewrite Hfreq by apply I.
      change (bd_kit (bd_relabel f b')) with (bd_kit b').
      destruct (freq_ok (bd_kit b') (tl cts)); (split; [reflexivity|]); split; apply I.
    - split; [reflexivity|]. split; apply I.
  Qed.

  Lemma need_rel b : inv b ->
    need_hl ln (bd_relabel f b) = (fst (need_hl ln b), bd_relabel f (snd (need_hl ln b))) /\ inv (snd (need_hl ln b)).
  Proof.
    intro H. unfold need_hl. change (bd_hl (bd_relabel f b)) with (bd_hl b).
    destruct (bd_hl b) as [hl|]; [split; [reflexivity|exact H]|].
    destruct (ohlcv_rel b H) as [E I]. rewrite E.
    destruct (build_ohlcv ln b) as [[r|e] b']; cbn [fst snd on_ok] in *; (split; [reflexivity|exact I]).
  Qed.

  Lemma foot_rel b tick mult : inv b ->
    build_footprints ln (bd_relabel f b) tick mult =
      (on_ok (fd_relabel f) (fst (build_footprints ln b tick mult)), bd_relabel f (snd (build_footprints ln b tick mult)))
    /\ inv (snd (build_footprints ln b tick mult)).
  Proof.
    intro H. destruct (set_close_rel b H) as [E I]. unfold build_footprints. rewrite E.
    destruct (set_close ln b) as [[[cts cix]|e] b']; cbn [fst snd on_ok pair_relabel] in *; [|split; [reflexivity|exact I]].
    destruct (need_rel b' I) as [E2 I2]. rewrite E2.
    destruct (need_hl ln b') as [[[hi lo]|e] b2]; cbn [fst snd] in *; [|split; [reflexivity|exact I2]].
    replace (t_px (bd_tr (bd_relabel f b2))) with (t_px (bd_tr b2)) by reflexivity.
    replace (t_am (bd_tr (bd_relabel f b2))) with (t_am (bd_tr b2)) by reflexivity.
    replace (t_side (bd_tr (bd_relabel f b2))) with (t_side (bd_tr b2)) by reflexivity.
    destruct (match tick with Some q => Ok q | None => comp_price_tick_size (t_px (bd_tr b2)) end) as [q|e];
      [|split; [reflexivity|exact I2]].
    destruct (t_side (bd_tr b2)) as [sd|]; [|split; [reflexivity|exact I2]].
    destruct (comp_bar_footprints (t_px (bd_tr b2)) (t_am (bd_tr b2)) cix sd q lo hi mult) as [l|e];
      [|split; [reflexivity|exact I2]].
    rewrite tl_map. split; [reflexivity|exact I2].
  Qed.

  Lemma exec_rel b c : inv b ->
    exec ln log1p (bd_relabel f b) c =
      (on_ok (reply_relabel f) (fst (exec ln log1p b c)), bd_relabel f (snd (exec ln log1p b c)))
    /\ inv (snd (exec ln log1p b c)).
  Proof.
    intro H. destruct (set_close_rel b H) as [E I]. destruct c as [| |theta mult|tick mult| | |]; unfold exec, tag.
    - destruct (ohlcv_rel b H) as [E2 I2]. rewrite E2.
      destruct (build_ohlcv ln b) as [[r|e] b']; cbn [fst snd on_ok] in *; (split; [reflexivity|exact I2]).
    - unfold build_directional. rewrite E.
      destruct (set_close ln b) as [[[cts cix]|e] b']; cbn [fst snd on_ok pair_relabel] in *; [|split; [reflexivity|exact I]].
      replace (t_px (bd_tr (bd_relabel f b'))) with (t_px (bd_tr b')) by reflexivity.
      replace (t_am (bd_tr (bd_relabel f b'))) with (t_am (bd_tr b')) by reflexivity.
      replace (t_side (bd_tr (bd_relabel f b'))) with (t_side (bd_tr b')) by reflexivity.
      destruct (t_side (bd_tr b')) as [sd|]; cbn [fst snd]; [|split; [reflexivity|exact I]].
      rewrite frame_rel. destruct (frame cts _); (split; [reflexivity|exact I]).
    - unfold build_size. rewrite E.
      destruct (set_close ln b) as [[[cts cix]|e] b']; cbn [fst snd on_ok pair_relabel] in *; [|split; [reflexivity|exact I]].
      replace (t_am (bd_tr (bd_relabel f b'))) with (t_am (bd_tr b')) by reflexivity.
      destruct (comp_bar_size log1p (t_am (bd_tr b')) theta cix mult) as [rows|e]; cbn [fst snd]; [|split; [reflexivity|exact I]].
      rewrite frame_rel. destruct (frame cts _); (split; [reflexivity|exact I]).
    - destruct (foot_rel b tick mult H) as [E2 I2]. rewrite E2.
      destruct (build_footprints ln b tick mult) as [[r|e] b']; cbn [fst snd on_ok] in *; (split; [reflexivity|exact I2]).
    - rewrite E. destruct (set_close ln b) as [[[cts cix]|e] b']; cbn [fst snd on_ok pair_relabel] in *; (split; [reflexivity|exact I]).
    - rewrite E. destruct (set_close ln b) as [[[cts cix]|e] b']; cbn [fst snd on_ok pair_relabel] in *; [rewrite tl_map|]; (split; [reflexivity|exact I]).
    - unfold get_sigma. change (bd_kit (bd_relabel f b)) with (bd_kit b).
      destruct (bd_kit b); try (split; [reflexivity|exact H]).
      rewrite E. destruct (set_close ln b) as [[[cts cix]|e] b']; cbn [fst snd on_ok pair_relabel] in *; [|split; [reflexivity|exact I]].
      change (bd_kit (bd_relabel f b')) with (bd_kit b').
      destruct (bd_kit b') as [| | | |s ? ?]; try (split; [reflexivity|exact I]).
      destruct (forallb _ _); (split; [reflexivity|exact I]).
  Qed.

  Lemma after_rel h : forall b, inv b ->
    after ln log1p (bd_relabel f b) h = bd_relabel f (after ln log1p b h) /\ inv (after ln log1p b h).
  Proof.
    unfold after. induction h as [|c h IH]; intros b H; cbn [fold_left]; [split; [reflexivity|exact H]|].
    destruct (exec_rel b c H) as [E I]. rewrite E. cbn [snd]. now apply IH.
  Qed.

  Lemma machine_rel k h c : ok k ->
    fst (exec ln log1p (after ln log1p (fresh k (retimed f t)) h) c) =
    on_ok (reply_relabel f) (fst (exec ln log1p (after ln log1p (fresh k t) h) c)).
  Proof.
    intro K. assert (H : inv (fresh k t)) by (split; [exact K|reflexivity]).
    change (fresh k (retimed f t)) with (bd_relabel f (fresh k t)).
    destruct (after_rel h _ H) as [E I]. rewrite E. destruct (exec_rel _ c I) as [E2 _]. now rewrite E2.
  Qed.
End Machine.

(* ------------------------------------------------------------------ *)
(** ** The closes *)

Lemma gather_rel f ts idx : gather (map f ts) idx = on_ok (pair_relabel f) (gather ts idx).
Proof.
  unfold gather. rewrite map_length.
  destruct (forallb (fun i => (i <? length ts)%nat) idx) eqn:E; [|reflexivity].
  cbn [on_ok pair_relabel fst snd]. unfold pair_relabel. cbn [fst snd]. f_equal. f_equal. rewrite map_map. apply map_ext_in. intros i Hi.
  rewrite forallb_forall in E. apply nth_map_in. apply Nat.ltb_lt. now apply E.
Qed.

Lemma cusum_rel ln f ts px sigma flr mult : (forall x y, f x = f y -> x = y) -> length ts = length px ->
  cusum_bar_indexer ln (map f ts) px sigma flr mult = cusum_bar_indexer ln ts px sigma flr mult.
Proof.
  intros Hf L. unfold cusum_bar_indexer. cbv zeta. f_equal. set (s0 := mkCS _ _ _). clearbody s0.
  generalize (seq (first_non_nan sigma + 1) (length px - (first_non_nan sigma + 1))) as l.
  intro l. revert s0. induction l as [|i l IH]; intro s0; cbn [fold_left]; [reflexivity|].
  rewrite IH. f_equal. unfold cusum_bar_step. cbv zeta.
  destruct (Nat.ltb_spec (i + 1) (length px)) as [H|H]; cbn [andb]; [|reflexivity].
  rewrite !(nth_map_in f ts _ 0 0) by lia.
  replace (f (nth i ts 0) =? f (nth (i + 1) ts 0)) with (nth i ts 0 =? nth (i + 1) ts 0); [reflexivity|].
  apply Bool.eq_iff_eq_true. rewrite !Z.eqb_eq. split; [congruence|apply Hf].
Qed.

Definition no_clock (k : kit) : Prop := match k with KTime _ => False | _ => True end.

Lemma close_rel ln f t k : (forall x y, f x = f y -> x = y) -> length (t_ts t) = length (t_px t) -> no_clock k ->
  comp_bar_close ln k (retimed f t) =
    (on_ok (pair_relabel f) (fst (comp_bar_close ln k t)), snd (comp_bar_close ln k t)).
Proof.
  intros Hf L K. destruct k as [iv|n|thr|thr|sigma flr mult]; unfold comp_bar_close; cbn [t_ts t_px t_am retimed fst snd].
  - destruct K.
  - now rewrite gather_rel, map_length.
  - now rewrite gather_rel.
  - now rewrite gather_rel.
  - unfold cusum_len_check. rewrite map_length.
    destruct (negb _); cbn [fst snd on_ok]; [|reflexivity].
    now rewrite gather_rel, cusum_rel.
Qed.

Definition counted (k : kit) : Prop := match k with KTick _ | KVolume _ | KDollar _ => True | _ => False end.
Lemma counted_builder ln log1p f t k h c : counted k ->
  fst (exec ln log1p (after ln log1p (fresh k (retimed f t)) h) c) =
  on_ok (reply_relabel f) (fst (exec ln log1p (after ln log1p (fresh k t) h) c)).
Proof.
  intro K. apply (machine_rel ln log1p f t counted); [| | |exact K].
  - intros k' K'. destruct k' as [iv|n|thr|thr|sigma flr mult]; try destruct K'; unfold comp_bar_close; cbn [t_ts t_px t_am retimed fst snd];
      rewrite gather_rel; rewrite ?map_length; reflexivity.
  - intros k' K'. destruct k'; cbn in *; tauto.
  - intros k' ix K'. destruct k'; [destruct K'|reflexivity..].
Qed.

Lemma untimed_builder ln log1p f t k h c :
  (forall x y, f x = f y -> x = y) -> length (t_ts t) = length (t_px t) -> no_clock k ->
  fst (exec ln log1p (after ln log1p (fresh k (retimed f t)) h) c) =
  on_ok (reply_relabel f) (fst (exec ln log1p (after ln log1p (fresh k t) h) c)).
Proof.
  intros Hf L K. apply (machine_rel ln log1p f t no_clock); [| | |exact K].
  - intros k' K'. now apply close_rel.
  - intros k' K'. destruct k'; cbn in *; auto. destruct (cusum_len_check _ _ _); exact Logic.I.
  - intros k' ix K'. destruct k'; [destruct K'|reflexivity..].
Qed.

(* ------------------------------------------------------------------ *)
(** ** Time bars *)

Lemma ss_right_shift l v d : ss_right (map (fun t => t + d) l) (v + d) = ss_right l v.
Proof.
  induction l as [|x l IH]; cbn; [reflexivity|]. rewrite IH.
  replace (x + d <=? v + d) with (x <=? v); [reflexivity|]. apply Bool.eq_iff_eq_true. rewrite !Z.leb_le. lia.
Qed.
Lemma ss_left_shift l v d : ss_left (map (fun t => t + d) l) (v + d) = ss_left l v.
Proof.
  induction l as [|x l IH]; cbn; [reflexivity|]. rewrite IH.
  replace (x + d <? v + d) with (x <? v); [reflexivity|]. apply Bool.eq_iff_eq_true. rewrite !Z.ltb_lt. lia.
Qed.
Lemma last_map (f : Z -> Z) l : l <> [] -> last (map f l) 0 = f (last l 0).
Proof.
  induction l as [|x l IH]; intro H; [easy|]. destruct l as [|y l]; [reflexivity|].
  change (last (map f (y :: l)) 0 = f (last (y :: l) 0)). apply IH. discriminate.
Qed.
Lemma hd_map (f : Z -> Z) l : l <> [] -> hd 0 (map f l) = f (hd 0 l).
Proof. destruct l; [easy|reflexivity]. Qed.
Lemma ascZ_shift d l : ascZ l -> ascZ (map (fun t => t + d) l).
Proof.
  intros H i j Hij. rewrite map_length in Hij. rewrite !(nth_map_in _ l _ 0 0) by lia.
  pose proof (H i j Hij). lia.
Qed.

Lemma squeeze x y I h : 0 < I -> x * I <= h < (x + 1) * I -> y * I <= h < (y + 1) * I -> x = y.
Proof. intros. assert (x < y + 1) by (apply (Zmult_lt_reg_r _ _ I); lia). assert (y < x + 1) by (apply (Zmult_lt_reg_r _ _ I); lia). lia. Qed.
Lemma squeeze' x y I h : 0 < I -> x * I < h <= (x + 1) * I -> y * I < h <= (y + 1) * I -> x = y.
Proof. intros. assert (x < y + 1) by (apply (Zmult_lt_reg_r _ _ I); lia). assert (y < x + 1) by (apply (Zmult_lt_reg_r _ _ I); lia). lia. Qed.

Lemma clock_shift ts I m :
  ts <> [] -> ascZ ts -> 512 <= I -> (256 | I) ->
  0 <= hd 0 ts -> 0 <= hd 0 ts + m * I ->
  last ts 0 + 2 * I < 2 ^ 61 -> last ts 0 + m * I + 2 * I < 2 ^ 61 ->
  hd 0 ts mod I + 128 < I -> (last ts 0 mod I = 0 \/ 384 < last ts 0 mod I) ->
  ((2 ^ 53 <= last ts 0 /\ 2 ^ 53 <= last ts 0 + m * I) \/
   (last ts 0 + 2 * I < 2 ^ 53 /\ last ts 0 + m * I + 2 * I < 2 ^ 53)) ->
  time_bar_indexer (map (fun t => t + m * I) ts) I =
    (map (fun t => t + m * I) (fst (time_bar_indexer ts I)), snd (time_bar_indexer ts I)).
Proof.
  intros Hne Ha H512 H256 H0 H0' Hl Hl' Hh Hlm Hside.
  set (g := fun t => t + m * I).
  destruct (time_bar_main ts I Hne Ha H512 H256 H0 Hl Hh Hlm) as [N [a [HN [E1 [B1 [B2 [B3 B4]]]]]]].
  assert (Hne' : map g ts <> []) by (intro C; apply map_eq_nil in C; exact (Hne C)).
  assert (Hh' : hd 0 (map g ts) = hd 0 ts + m * I) by now rewrite hd_map.
  assert (Hll' : last (map g ts) 0 = last ts 0 + m * I) by now rewrite last_map.
  destruct (time_bar_main (map g ts) I Hne' (ascZ_shift _ _ Ha) H512 H256) as [N' [a' [HN' [E1' [B1' [B2' [B3' B4']]]]]]].
  1: rewrite Hh'; lia.
  1: rewrite Hll'; lia.
  1: rewrite Hh', Z_mod_plus_full; lia.
  1: rewrite Hll', Z_mod_plus_full; lia.
  rewrite Hh' in B1'. rewrite Hll' in B2', B3', B4'.
  assert (HI : 0 < I) by lia.
  assert (Ea : a' = a + m).
  { apply (squeeze _ _ I (hd 0 ts + m * I) HI); [exact B1'|].
    replace ((a + m) * I) with (a * I + m * I) by ring. replace ((a + m + 1) * I) with ((a + 1) * I + m * I) by ring. lia. }
  assert (EN : N' = N).
  { subst a'. destruct Hside as [[S1 S2]|[S1 S2]].
    - specialize (B3 S1). specialize (B3' S2).
      assert (X : a + Z.of_nat N - 2 + m = a + m + Z.of_nat N' - 2); [|lia].
      apply (squeeze' _ _ I (last ts 0 + m * I) HI).
      + replace ((a + Z.of_nat N - 2 + m) * I) with ((a + Z.of_nat N - 2) * I + m * I) by ring.
        replace ((a + Z.of_nat N - 2 + m + 1) * I) with ((a + Z.of_nat N - 1) * I + m * I) by ring. lia.
      + replace (a + m + Z.of_nat N' - 2 + 1) with (a + m + Z.of_nat N' - 1) by ring. lia.
    - specialize (B4 S1). specialize (B4' S2).
      assert (X : a + Z.of_nat N - 3 + m = a + m + Z.of_nat N' - 3); [|lia].
      apply (squeeze' _ _ I (last ts 0 + m * I) HI).
      + replace ((a + Z.of_nat N - 3 + m) * I) with ((a + Z.of_nat N - 3) * I + m * I) by ring.
        replace ((a + Z.of_nat N - 3 + m + 1) * I) with ((a + Z.of_nat N - 2) * I + m * I) by ring. lia.
      + replace (a + m + Z.of_nat N' - 3 + 1) with (a + m + Z.of_nat N' - 2) by ring. lia. }
  subst a' N'.
  assert (EC : fst (time_bar_indexer (map g ts) I) = map g (fst (time_bar_indexer ts I))).
  { rewrite E1', E1, map_map. apply map_ext. intro i. unfold g. ring. }
  rewrite (surjective_pairing (time_bar_indexer (map g ts) I)). rewrite EC. f_equal.
  rewrite !time_idx_eq. 
  rewrite EC. rewrite map_map. apply map_ext. intro c. unfold g. now rewrite ss_right_shift.
Qed.

Lemma freq_shift k d ix : freq_ok k (map (fun t => t + d) ix) = freq_ok k ix.
Proof.
  destruct k as [iv| | | |]; cbn [freq_ok]; try reflexivity. rewrite map_length.
  assert (E : forall i, In i (seq 0 (length ix)) ->
    (nth i (map (fun t => t + d) ix) 0 =? hd 0 (map (fun t => t + d) ix) + Z.of_nat i * iv) =
    (nth i ix 0 =? hd 0 ix + Z.of_nat i * iv)).
  { intros i Hi. apply in_seq in Hi. rewrite (nth_map_in _ ix i 0 0) by lia.
    rewrite hd_map by (destruct ix; [cbn in Hi; lia|discriminate]).
    apply Bool.eq_iff_eq_true. rewrite !Z.eqb_eq. lia. }
  revert E. generalize (seq 0 (length ix)) as l. induction l as [|i l IH]; intro E; cbn [forallb]; [reflexivity|].
  rewrite E by now left. f_equal. apply IH. intros j Hj. apply E. now right.
Qed.

Lemma timed_builder ln log1p t I m h c :
  good_kit (KTime I) t -> t_ts t <> [] ->
  0 <= hd 0 (t_ts t) + m * I -> last (t_ts t) 0 + m * I + 2 * I < 2 ^ 61 ->
  ((2 ^ 53 <= last (t_ts t) 0 /\ 2 ^ 53 <= last (t_ts t) 0 + m * I) \/
   (last (t_ts t) 0 + 2 * I < 2 ^ 53 /\ last (t_ts t) 0 + m * I + 2 * I < 2 ^ 53)) ->
  fst (exec ln log1p (after ln log1p (fresh (KTime I) (retimed (fun x => x + m * I) t)) h) c) =
  on_ok (reply_relabel (fun x => x + m * I)) (fst (exec ln log1p (after ln log1p (fresh (KTime I) t) h) c)).
Proof.
  intros G Hne H0 Hl Hs. apply (machine_rel ln log1p _ t (fun k => k = KTime I)); [| | |reflexivity].
  - intros k ->. unfold comp_bar_close. cbn [t_ts retimed fst snd on_ok]. unfold pair_relabel.
    destruct G as (G1 & G2 & G3 & G4 & G5 & G6 & G7).
    rewrite clock_shift by assumption. reflexivity.
  - intros k ->. reflexivity.
  - intros k ix ->. apply freq_shift.
Qed.
