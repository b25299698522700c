(** T_volat.v -- properties of the volatility estimators (feature/core/volatility.py). *)
From Coq Require Import Qpower.
From Verif Require Import Base M_features S_features P_weights P_features P_features2 M_volat S_volat P_volat.
Open Scope Q_scope.

(* ------------------------------------------------------------------ *)
(** ** C98: ewms *)
Theorem C98_ewms : forall sqrt ys span i, (2 <= span)%Z -> (i < length ys)%nat ->
  let b := (inject_Z span - 1) / (inject_Z span + 1) in
  let w := fun j => b ^ Z.of_nat (i - j) in
  let out := ewms sqrt ys span in
  let n := n_obs ys (fun _ => true) 0 i in
  length out = length ys /\
  (nth i out None = None <-> (n < 2)%nat) /\
  ((2 <= n)%nat -> exists v, nth i out None = Some (sqrt v) /\ 0 <= v /\ wvar ys w 0 i v).
Proof.
  intros sqrt ys span i Hs Hi b w out n. unfold out, ewms.
  destruct (Z.leb_spec span 1) as [K|K]; [lia|]. rewrite ew_loop_length. split; [auto|].
  rewrite ew_loop_nth by auto. set (b' := 1 - 2 / (inject_Z span + 1)).
  assert (S2 : 2 <= inject_Z span) by (change 2 with (inject_Z 2); now rewrite <- Zle_Qle).
  assert (Eb : b == b') by (unfold b, b'; field; lra).
  assert (Hb : 0 < b) by (unfold b; apply Qlt_shift_div_l; lra).
  assert (Ew : forall j, bw b' (S i) j == w j).
  { intro j. unfold bw, w. replace (S i - 1 - j)%nat with (i - j)%nat by lia. now rewrite Eb. }
  assert (Hw : forall j, 0 < w j) by (intro j; unfold w; now apply Qpower_0_lt).
  destruct (ew_fold b' ys (S i) ltac:(lia)) as [F1 [F2 [F3 F4]]]. cbv zeta in F1, F2, F3, F4.
  set (s := fold_left _ _ _) in *. clearbody s.
  set (W := osum ys 0 i (fun j _ => w j)). set (W2 := osum ys 0 i (fun j _ => w j * w j)).
  set (Y := osum ys 0 i (fun j x => w j * x)). set (Y2 := osum ys 0 i (fun j x => w j * (x * x))).
  assert (G : forall f g : nat -> Q -> Q, (forall j x, f j x == g j x) ->
     ssum (fun j => obs ys j (f j)) 0 (S i) == osum ys 0 i g).
  { intros f g H. apply ssum_ext. intros j _. unfold obs. destruct (nth j ys None); [apply H|reflexivity]. }
  rewrite (G _ (fun j _ => w j)) in F1 by (intros; apply Ew). fold W in F1.
  rewrite (G _ (fun j _ => w j * w j)) in F2 by (intros; rewrite Ew; reflexivity). fold W2 in F2.
  rewrite (G _ (fun j x => w j * x)) in F3 by (intros; rewrite Ew; reflexivity). fold Y in F3.
  rewrite (G _ (fun j x => w j * (x * x))) in F4 by (intros; rewrite Ew; reflexivity). fold Y2 in F4.
  destruct (weight_counts ys w 0 i) as [C0 [C1 [C2 C3]]].
  { intros j _. apply Qlt_le_weak, Hw. }
  cbv zeta in C0, C1, C2, C3. fold W W2 in C0, C1, C2, C3.
  rewrite (n_obs_ext _ _ (fun _ => true)) in C2, C3.
  2-3: intros j _; apply Qltb_iff, Hw.
  fold n in C2, C3. unfold ew_out. cbv zeta.
  destruct (Qltb_spec 0 (e_w s)) as [P|P].
  - assert (PW : 0 < W) by (rewrite <- F1; auto).
    destruct (Qltb_spec 0 (e_w s - e_w2 s / e_w s)) as [D|D].
    + assert (DW : 0 < W - W2 / W) by (rewrite <- F1, <- F2; auto).
      assert (n2 : (2 <= n)%nat) by (apply C3, (den_pos W W2); auto).
      set (V := (e_y2 s / e_w s - e_y s / e_w s * (e_y s / e_w s)) * e_w s / (e_w s - e_w2 s / e_w s)).
      assert (EV : V == (Y2 / W - Y / W * (Y / W)) * W / (W - W2 / W)).
      { unfold V. rewrite F1, F2, F3, F4. reflexivity. }
      assert (NV : 0 <= V).
      { rewrite EV. apply Qle_shift_div_l; auto. rewrite Qmult_0_l.
        pose proof (raw_nonneg ys w 0 i) as R. cbv zeta in R. fold W Y Y2 in R.
        assert (0 <= Y2 / W - Y / W * (Y / W)) by (apply R; auto; intros; apply Qlt_le_weak, Hw). nra. }
      split; [split; [discriminate|lia]|]. intros _. exists V. rewrite pmax_zero_r by auto. split; [auto|]. split; [auto|].
      destruct (wvar_formula ys w 0 i) as [m [M1 M2]]; auto. exists m. split; [exact M1|].
      rewrite EV. exact M2.
    + assert (~ (2 <= n)%nat). { intro H. apply C3, (den_pos W W2) in H; auto. rewrite <- F1, <- F2 in H. lra. }
      split; [split; auto; intros _; lia|]. intro. contradiction.
  - assert (~ (1 <= n)%nat). { intro H. apply C2 in H. rewrite <- F1 in H. lra. }
    split; [split; auto; intros _; lia|]. intro. lia.
Qed.
Theorem C98_small_span : forall sqrt ys span, (span <= 1)%Z -> ewms sqrt ys span = repeat None (length ys).
Proof. intros sqrt ys span H. unfold ewms. destruct (Z.leb_spec span 1); [auto|lia]. Qed.
Example C98_example : map (option_map Qred) (ewms (fun q => q) [Some 1; None; Some 3; Some 2] 3) =
    [None; None; Some 2; Some (7 # 11)] /\
  ewms (fun q => q) [Some 1; Some 2] 1 = [None; None].
Proof. vm_compute. auto. Qed.

(* ------------------------------------------------------------------ *)
(** ** C99: ewmst_mean0 *)
Lemma floored_intro s floor : floored s floor (if Qltb s floor then floor else s).
Proof. unfold floored. destruct (Qltb_spec s floor); split; intro; auto; lra. Qed.
Theorem C99_ewmst_mean0 : forall sqrt exp ts y hl floor i, ~ hl == 0 -> (i < length y)%nat ->
  let d := step_decay exp ts hl in
  (forall k, (1 <= k <= i)%nat -> 0 < d k <= 1) ->
  let n := n_obs y (fun j => Qltb (d j) 1) 1 i in
  exists out, ewmst_mean0 sqrt exp ts y hl floor = Ok out /\ length out = length y /\
  (nth i out None = None <-> n = 0%nat) /\
  ((1 <= n)%nat -> exists v r, nth i out None = Some r /\ floored (sqrt v) floor r /\ 0 <= v /\
     v * osum y 1 i (fun j _ => wt d i j) == osum y 1 i (fun j x => wt d i j * (x * x))).
Proof.
  intros sqrt exp ts y hl floor i Hh Hi d Hd n. unfold ewmst_mean0.
  destruct (Qeqb_spec hl 0) as [Z0|_]; [contradiction|]. rewrite andb_false_r.
  eexists. split; [reflexivity|]. rewrite map_length, seq_length. split; [auto|]. rewrite nth_map_seq by auto.
  destruct i as [|i]; [split; [split; auto|unfold n, n_obs; cbn; lia]|].
  destruct (m0_sums exp ts y hl (S i)) as [E1 E2]. fold d in E1, E2.
  set (s := m0_state exp ts y hl (S i)) in *. clearbody s.
  destruct (weight_counts y (wt d (S i)) 1 (S i)) as [C0 [_ [C2 _]]].
  { intros j Hj. apply wt_sign; auto; lia. }
  cbv zeta in C0, C2. rewrite (n_obs_ext _ _ (fun j => Qltb (d j) 1)) in C2.
  2:{ intros j Hj. apply wt_sign; auto; lia. }
  fold n in C2. set (W := osum y 1 (S i) (fun j _ => wt d (S i) j)) in *.
  set (Y2 := osum y 1 (S i) (fun j x => wt d (S i) j * (x * x))) in *.
  assert (N2 : 0 <= Y2). { apply osum_nonneg. intros j x Hj. destruct (wt_sign d (S i) j ltac:(lia) Hd ltac:(lia)) as [N _].
    assert (0 <= x * x) by (destruct (Qlt_le_dec x 0); nra). nra. }
  unfold m0_out. destruct (Qltb_spec 0 (snd s)) as [K|K].
  - rewrite E2 in K. assert (1 <= n)%nat by (apply C2; auto).
    split; [split; [discriminate|lia]|]. intros _. exists (fst s / snd s). eexists.
    assert (NV : 0 <= fst s / snd s) by (rewrite E1, E2; apply Qle_shift_div_l; lra).
    destruct (Qltb_spec (fst s / snd s) 0) as [B|_]; [lra|].
    split; [reflexivity|]. split; [apply floored_intro|]. split; [auto|]. rewrite E1, E2. field. lra.
  - rewrite E2 in K. assert (~ (1 <= n)%nat) by (intro H; apply C2 in H; lra).
    split; [split; auto; intros _; lia|]. intro. lia.
Qed.
Theorem C99_zero_half_life : forall sqrt exp ts y hl floor, hl == 0 -> (2 <= length y)%nat ->
  ewmst_mean0 sqrt exp ts y hl floor = Raise ZeroDivisionError /\ ewmst sqrt exp ts y hl floor = Raise ZeroDivisionError.
Proof.
  intros sqrt exp ts y hl floor Hh Hl. unfold ewmst_mean0, ewmst.
  destruct (Nat.leb_spec 2 (length y)); [|lia]. destruct (Qeqb_spec hl 0); [|contradiction]. auto.
Qed.
Example C99_example :
  let exp := fun x => if Qeqb x 0 then 1 else 1 # 2 in
  (exists out, ewmst_mean0 (fun q => q) exp [0; 1000000000; 1000000000; 3000000000]%Z [Some 9; Some 2; Some 7; Some 1] 60 (1 # 10) = Ok out /\
     map (option_map Qred) out = [None; Some 4; Some 4; Some 2]) /\
  (forall k, (1 <= k <= 3)%nat -> 0 < step_decay exp [0; 1000000000; 1000000000; 3000000000]%Z 60 k <= 1).
Proof.
  cbv zeta. split.
  - eexists. split; [reflexivity|]. vm_compute. reflexivity.
  - intros k Hk. destruct k as [|[|[|[|k]]]]; try lia; vm_compute; split; congruence.
Qed.

(* ------------------------------------------------------------------ *)
(** ** C100: ewmst *)
(** What it computes: the weighted deviation of the series with NaN replaced by 0. *)
Theorem C100_zero_filled_partial : forall sqrt exp ts y hl floor i, ~ hl == 0 -> (i < length y)%nat ->
  let d := step_decay exp ts hl in
  (forall k, (1 <= k <= i)%nat -> 0 < d k <= 1) ->
  let n := n_obs (zero_fill y) (fun j => Qltb (d j) 1) 1 i in
  exists out, ewmst sqrt exp ts y hl floor = Ok out /\ length out = length y /\
  (nth i out None = None <-> n = 0%nat) /\
  ((1 <= n)%nat -> exists v r, nth i out None = Some r /\ floored (sqrt v) floor r /\ 0 <= v /\
     (n = 1%nat -> v == 0) /\ ((2 <= n)%nat -> wvar (zero_fill y) (wt d i) 1 i v)).
Proof.
  intros sqrt exp ts y hl floor i Hh Hi d Hd n. unfold ewmst.
  destruct (Qeqb_spec hl 0) as [Z0|_]; [contradiction|]. rewrite andb_false_r.
  eexists. split; [reflexivity|]. rewrite map_length, seq_length. split; [auto|]. rewrite nth_map_seq by auto.
  destruct i as [|i]; [split; [split; auto|unfold n, n_obs; cbn; lia]|].
  destruct (et_sums exp ts y hl (S i) Hi) as [F1 [F2 [F3 F4]]]. fold d in F1, F2, F3, F4.
  set (s := et_state exp ts y hl (S i)) in *. clearbody s.
  set (z := zero_fill y) in *. set (w := wt d (S i)) in *.
  assert (Hw : forall j, (1 <= j <= S i)%nat -> 0 <= w j) by (intros j Hj; apply wt_sign; auto; lia).
  destruct (weight_counts z w 1 (S i) Hw) as [C0 [C1 [C2 C3]]].
  cbv zeta in C0, C1, C2, C3. rewrite (n_obs_ext _ _ (fun j => Qltb (d j) 1)) in C2, C3.
  2-3: intros j Hj; apply wt_sign; auto; lia.
  fold n in C2, C3. set (W := osum z 1 (S i) (fun j _ => w j)) in *.
  set (W2 := osum z 1 (S i) (fun j _ => w j * w j)) in *.
  set (Y := osum z 1 (S i) (fun j x => w j * x)) in *. set (Y2 := osum z 1 (S i) (fun j x => w j * (x * x))) in *.
  unfold et_out. cbv zeta. destruct (Qltb_spec 0 (t_v s)) as [K|K].
  2:{ rewrite F1 in K. assert (~ (1 <= n)%nat) by (intro H; apply C2 in H; lra).
      split; [split; auto; intros _; lia|]. intro. lia. }
  rewrite F1 in K. assert (n1 : (1 <= n)%nat) by (apply C2; auto).
  split; [split; [discriminate|lia]|]. intros _.
  set (raw := t_yy s / t_v s - t_y s / t_v s * (t_y s / t_v s)). set (den := t_v s - t_v2 s / t_v s).
  assert (Er : raw == Y2 / W - Y / W * (Y / W)) by (unfold raw; rewrite F1, F3, F4; reflexivity).
  assert (Ed : den == W - W2 / W) by (unfold den; rewrite F1, F2; reflexivity).
  assert (Nr : 0 <= raw) by (rewrite Er; apply (raw_nonneg z w 1 (S i)); auto).
  assert (Dp : 0 < den <-> (2 <= n)%nat) by (rewrite Ed, (den_pos W W2 K); exact C3).
  clearbody raw den.
  set (V := if (Qltb 0 den && Qltb 0 raw)%bool then raw * (t_v s / den) else 0).
  assert (EV : 0 < den -> V == (Y2 / W - Y / W * (Y / W)) * W / (W - W2 / W)).
  { intro Hp. rewrite <- Er, <- Ed. unfold V. destruct (Qltb_spec 0 den); [|lra]. cbn [andb].
    destruct (Qltb_spec 0 raw).
    - rewrite F1. field. lra.
    - assert (E0 : raw == 0) by lra. rewrite E0. field. lra. }
  exists V. eexists. split; [reflexivity|]. split; [apply floored_intro|]. split; [|split].
  - destruct (Qltb_spec 0 den) as [H|H].
    + rewrite EV by auto. rewrite <- Er, <- Ed. apply Qle_shift_div_l; auto. nra.
    + unfold V. destruct (Qltb_spec 0 den); [lra|]. cbn [andb]. lra.
  - intro H1. unfold V. destruct (Qltb_spec 0 den) as [H|H]; [apply Dp in H; lia|reflexivity].
  - intro H2. apply Dp in H2. rewrite Ed in H2.
    destruct (wvar_formula z w 1 (S i)) as [m [M1 M2]]; auto. exists m. split; [exact M1|].
    rewrite EV by (rewrite Ed; auto). exact M2.
Qed.
(** Missing observations are not skipped: three observations, of which the two present
    ones are equal, have a non-zero deviation (whatever exp and sqrt are). *)
Theorem C100_missing_refuted : forall sqrt exp, 0 < exp (-(1)) < 1 -> (forall x, 0 < x -> 0 < sqrt x) ->
  (forall x x', x == x' -> exp x == exp x') ->
  exists ts y s out, ewmst sqrt exp ts y 1 0 = Ok out /\ nth 3 out None = Some s /\ 0 < s /\
    forall j x, nth j y None = Some x -> x = 5.
Proof.
  intros sqrt exp He Hq Hc. exists [0; 1000000000; 2000000000; 3000000000]%Z, [Some 5; Some 5; Some 5; None].
  set (ts := [0; 1000000000; 2000000000; 3000000000]%Z). set (y := [Some 5; Some 5; Some 5; None]).
  destruct (C100_zero_filled_partial sqrt exp ts y 1 0 3) as [out [E [_ [_ H]]]]; [discriminate|cbn; lia| |].
  { intros k Hk. unfold step_decay. rewrite (Hc _ (-(1))); [lra|].
    destruct k as [|[|[|[|k]]]]; try lia; reflexivity. }
  set (d := step_decay exp ts 1) in *.
  assert (Ed : forall k, (1 <= k <= 3)%nat -> d k == exp (-(1))).
  { intros k Hk. unfold d, step_decay. apply Hc. destruct k as [|[|[|[|k]]]]; try lia; reflexivity. }
  assert (Hn : n_obs (zero_fill y) (fun j => Qltb (d j) 1) 1 3 = 3%nat).
  { rewrite (n_obs_ext _ _ (fun _ => true)); [reflexivity|]. intros j Hj. apply Qltb_iff. rewrite Ed by lia. lra. }
  rewrite Hn in H. destruct (H ltac:(lia)) as [v [r [E2 [[F1 F2] [Nv [_ [m [M1 M2]]]]]]]]; [lia|].
  assert (Pv : 0 < v).
  { destruct (Qlt_le_dec 0 v) as [P|P]; auto. exfalso. assert (V0 : v == 0) by lra.
    rewrite V0, Qmult_0_l in M2. unfold osum, ssum, obs in M2. cbn [seq map Nat.sub] in M2. rewrite !qsum_cons in M2.
    change (nth 1 (zero_fill y) None) with (Some 5) in M2. change (nth 2 (zero_fill y) None) with (Some 5) in M2.
    change (nth 3 (zero_fill y) None) with (Some 0) in M2. change (qsum []) with 0 in M2.
    assert (W : forall j, (1 <= j <= 3)%nat -> 0 < wt d 3 j).
    { intros j Hj. destruct (wt_sign d 3 j) as [_ S]; [lia|intros k Hk; rewrite Ed by lia; lra|lia|].
      apply Qltb_iff. rewrite S. apply Qltb_iff. rewrite Ed by lia. lra. }
    pose proof (W 1%nat ltac:(lia)) as W1. pose proof (W 2%nat ltac:(lia)) as W2. pose proof (W 3%nat ltac:(lia)) as W3.
    assert (S1 : 0 <= (5 - m) * (5 - m)) by (destruct (Qlt_le_dec (5 - m) 0); nra).
    assert (S2 : 0 <= (0 - m) * (0 - m)) by (destruct (Qlt_le_dec m 0); nra).
    cbv iota in M2. set (a := (5 - m) * (5 - m)) in *. set (b := (0 - m) * (0 - m)) in *.
    assert (T1 : a == 0) by (clear - M2 W1 W2 W3 S1 S2; clearbody a b; nra).
    assert (T2 : b == 0) by (clear - M2 W1 W2 W3 S1 S2; clearbody a b; nra). unfold a in T1. unfold b in T2.
    apply Qmult_integral in T1. apply Qmult_integral in T2. destruct T1, T2; lra. }
  exists r, out. split; [exact E|]. split; [exact E2|]. split.
  - specialize (Hq v Pv). rewrite F2; lra.
  - intros j x Hj. do 4 (destruct j as [|j]; [cbn in Hj; congruence|]). destruct j; cbn in Hj; congruence.
Qed.
Example C100_example :
  let exp := fun x => 1 # 2 in
  exists out, ewmst (fun q => q) exp [0; 1000000000; 2000000000; 3000000000]%Z [Some 9; Some 2; Some 7; Some 1] 60 (1 # 10) = Ok out /\
     map (option_map Qred) out = [None; Some (1 # 10); Some (25 # 2); Some (171 # 14)].
Proof. cbv zeta. eexists. split; [reflexivity|]. vm_compute. reflexivity. Qed.

(* ------------------------------------------------------------------ *)
(** ** C101: true range *)
Lemma abs_cases x : 0 <= x /\ Qabs x == x \/ x < 0 /\ Qabs x == - x.
Proof. destruct (Qlt_le_dec x 0); [right|left]; split; auto; [apply Qabs_neg; lra|apply Qabs_pos; auto]. Qed.
Lemma tr_formula h l c : l <= h -> pmax (pmax (h - l) (Qabs (h - c))) (Qabs (l - c)) == Qmax h c - Qmin l c.
Proof.
  intro Hl. destruct (abs_cases (h - c)) as [[A1 E1]|[A1 E1]], (abs_cases (l - c)) as [[A2 E2]|[A2 E2]]; rewrite E1, E2;
  match goal with |- pmax (pmax ?a ?b) ?c == _ =>
    pose proof (pmax_l a b); pose proof (pmax_r a b); pose proof (pmax_case a b) as K1; set (m := pmax a b) in *; clearbody m;
    pose proof (pmax_l m c); pose proof (pmax_r m c); pose proof (pmax_case m c) as K2; set (r := pmax m c) in *; clearbody r end;
  destruct (Q.max_spec h c) as [[A3 ->]|[A3 ->]], (Q.min_spec l c) as [[A4 ->]|[A4 ->]], K1 as [->| ->], K2 as [->| ->]; lra.
Qed.
Theorem C101_true_range : forall high low close i,
  length high = length low -> length low = length close -> (i < length high)%nat ->
  exists out, true_range high low close = Ok out /\ length out = length high /\
    (nth i out None = None <->
       nth i high None = None \/ nth i low None = None \/ ((0 < i)%nat /\ nth (i - 1) close None = None)) /\
    (forall h l, i = 0%nat -> nth i high None = Some h -> nth i low None = Some l -> exists t, nth i out None = Some t /\ t == h - l) /\
    (forall h l c, (0 < i)%nat -> nth i high None = Some h -> nth i low None = Some l -> nth (i - 1) close None = Some c -> l <= h ->
       exists t, nth i out None = Some t /\ t == Qmax h c - Qmin l c /\ 0 <= t /\ h - l <= t).
Proof.
  intros high low close i H1 H2 Hi. unfold true_range. rewrite (proj2 (Nat.eqb_eq _ _) H1), (proj2 (Nat.eqb_eq _ _) H2).
  eexists. split; [reflexivity|]. rewrite map_length, seq_length. split; [auto|]. rewrite nth_map_seq by auto.
  unfold tr_at, known. destruct i as [|i].
  - split; [|split].
    + destruct (nth 0 high None), (nth 0 low None); split; intro H; auto; try discriminate.
      destruct H as [H|[H|[H _]]]; [discriminate|discriminate|lia].
    + intros h l _ -> ->. eexists. split; [reflexivity|]. reflexivity.
    + intros; lia.
  - replace (S i - 1)%nat with i by lia. split; [|split].
    + destruct (nth (S i) high None), (nth (S i) low None), (nth i close None); split; intro H; auto; try discriminate.
      * destruct H as [H|[H|[_ H]]]; discriminate.
      * right. right. split; [lia|auto].
    + intros; lia.
    + intros h l c _ -> -> -> Hl. eexists. split; [reflexivity|]. split.
      * apply tr_formula. auto.
      * split; [|eapply Qle_trans; [|apply pmax_l]; apply pmax_l].
        eapply Qle_trans; [|apply pmax_r]. apply Qabs_nonneg.
Qed.
Theorem C101_lengths : forall high low close,
  (exists e, true_range high low close = Raise e) <-> ~ (length high = length low /\ length low = length close).
Proof.
  intros. unfold true_range. destruct (Nat.eqb_spec (length high) (length low)); cbn [andb].
  - destruct (Nat.eqb_spec (length low) (length close)); split.
    + intros [x E]; discriminate.
    + intro H. exfalso. apply H. auto.
    + intros _ [_ H]. contradiction.
    + intros _. eauto.
  - split; [intros _ [H _]; contradiction|eauto].
Qed.
Example C101_example :
  match true_range [Some 5; Some 6; None; Some 9] [Some 3; Some 5; Some 1; Some 8] [Some 4; Some 5; Some 2; Some 8] with
  | Ok o => map (option_map Qred) o | Raise _ => [] end = [Some 2; Some 2; None; Some 7] /\
  true_range [Some 1] [] [] = Raise ValueError.
Proof. vm_compute. auto. Qed.

Print Assumptions C98_ewms.
Print Assumptions C98_small_span.
Print Assumptions C99_ewmst_mean0.
Print Assumptions C99_zero_half_life.
Print Assumptions C100_zero_filled_partial.
Print Assumptions C100_missing_refuted.
Print Assumptions C101_true_range.
Print Assumptions C101_lengths.
