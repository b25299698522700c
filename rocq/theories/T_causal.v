(** T_causal.v -- features do not look ahead (C147). *)
From Verif Require Import Base M_logic M_bars M_features M_transforms M_volat M_volume M_backend M_cusumtest S_causal.
Open Scope Q_scope.

(* ------------------------------------------------------------------ *)
(** ** Tools *)

Lemma local_causal {R B} (h : list R -> nat -> B) : (forall x y i, (i < length x)%nat -> h (x ++ y) i = h x i) ->
  causal (fun x => map (h x) (seq 0 (length x))).
Proof.
  intros H x y. split; [now rewrite map_length, seq_length|]. rewrite app_length, seq_app, map_app, firstn_app, map_length, seq_length, Nat.sub_diag, app_nil_r.
  rewrite firstn_all2 by (rewrite map_length, seq_length; lia). apply map_ext_in. intros i Hi. apply in_seq in Hi. apply H. lia.
Qed.
Lemma causal_ext {R B} (f g : list R -> list B) : (forall x, f x = g x) -> causal g -> causal f.
Proof. intros E H x y. rewrite !E. apply H. Qed.
Lemma causal_ok_of {R B} (f : list R -> result (list B)) (g : list R -> list B) :
  (forall x a, f x = Ok a -> a = g x) -> causal g -> causal_ok f.
Proof. intros E H x y a b Ha Hb. apply E in Ha, Hb. subst. apply H. Qed.
Lemma collect_val {A} (d : A) (h : nat -> result A) l a : collect (map h l) = Ok a -> a = map (fun i => match h i with Ok v => v | Raise _ => d end) l.
Proof.
  revert a. induction l as [|i l IH]; intros a H; cbn [map collect] in *; [now injection H as <-|]. destruct (h i) as [v|e]; [|discriminate]. destruct (collect (map h l)) as [r|e]; [|discriminate].
  injection H as <-. f_equal. now apply IH.
Qed.
(** A loop over the rows that keeps a state. *)
Lemma scan_causal {R S B} (loop : S -> list R -> list B) (step : S -> R -> S) (out : S -> R -> B) :
  (forall s, loop s [] = []) -> (forall s r t, loop s (r :: t) = out s r :: loop (step s r) t) -> forall s, causal (loop s).
Proof.
  intros H0 H1 s x. revert s. induction x as [|r x IH]; intros s y.
  - rewrite H0. split; reflexivity.
  - cbn [app length firstn]. rewrite !H1. cbn [firstn length]. destruct (IH (step s r) y) as [A B0]. now rewrite B0, A.
Qed.
Section Prefix.
  Context {R : Type}.
  Variables x y : list R.
  Lemma at_pre {B} (c : R -> B) i d : (i < length x)%nat -> nth i (map c (x ++ y)) d = nth i (map c x) d.
  Proof. intro H. rewrite map_app. apply app_nth1. now rewrite map_length. Qed.
  Lemma id_pre i d : (i < length x)%nat -> nth i (x ++ y) d = nth i x d.
  Proof. apply app_nth1. Qed.
  Lemma slice_pre s n : (s + n <= length x)%nat -> firstn n (skipn s (x ++ y)) = firstn n (skipn s x).
  Proof.
    intro H. rewrite skipn_app, firstn_app, skipn_length. replace (n - (length x - s))%nat with 0%nat by lia. cbn [firstn]. apply app_nil_r.
  Qed.
  Lemma first_pre n : (n <= length x)%nat -> firstn n (x ++ y) = firstn n x.
  Proof. intro H. rewrite firstn_app. replace (n - length x)%nat with 0%nat by lia. cbn [firstn]. apply app_nil_r. Qed.
  Lemma mapslice_pre {B} (c : R -> B) s n : (s + n <= length x)%nat -> firstn n (skipn s (map c (x ++ y))) = firstn n (skipn s (map c x)).
  Proof. intro H. rewrite !skipn_map, !firstn_map. now rewrite slice_pre. Qed.
End Prefix.
Lemma qn_pre {R} (c : R -> Q) x y i : (i < length x)%nat -> qn (map c (x ++ y)) i = qn (map c x) i.
Proof. apply at_pre. Qed.
Lemma last_pre {R} (c : R -> Q) x y i n : (i < length x)%nat -> (n <= i + 1)%nat -> lastn (map c (x ++ y)) i n = lastn (map c x) i n.
Proof. intros H K. unfold lastn. apply mapslice_pre. lia. Qed.
Lemma fold_ext_in {A B} (f g : A -> B -> A) l a : (forall u b, In b l -> f u b = g u b) -> fold_left f l a = fold_left g l a.
Proof. revert a. induction l as [|b l IH]; intros a H; [reflexivity|]. cbn [fold_left]. rewrite H by now left. apply IH. intros; apply H; now right. Qed.
Lemma local_col {R A B} (c : R -> A) (h : list R -> nat -> B) : (forall x y i, (i < length x)%nat -> h (x ++ y) i = h x i) ->
  causal (fun x => map (h x) (seq 0 (length (map c x)))).
Proof. intro H. apply (causal_ext _ (fun x => map (h x) (seq 0 (length x)))); [intro; now rewrite map_length|]. now apply local_causal. Qed.
Lemma local_collect {R A B} (d : B) (c : R -> A) (h : list R -> nat -> result B) : (forall x y i, (i < length x)%nat -> h (x ++ y) i = h x i) ->
  causal_ok (fun x => collect (map (h x) (seq 0 (length (map c x))))).
Proof.
  intro H. apply (causal_ok_of _ (fun x => map (fun i => match h x i with Ok v => v | Raise _ => d end) (seq 0 (length (map c x))))).
  - intros x a Ha. now apply collect_val.
  - apply local_col. intros x y i Hi. now rewrite H.
Qed.
Lemma wilder_ext n a b x y k : a = b -> (forall j, (j <= n + k)%nat -> x j = y j) -> wilder n a x k = wilder n b y k.
Proof. intros <- H. induction k as [|k IH]; [reflexivity|]. cbn [wilder]. rewrite IH by (intros; apply H; lia). rewrite (H (n + S k)%nat) by lia. reflexivity. Qed.
Lemma wsum_ext x y n k : (forall j, (j <= n + k)%nat -> x j = y j) -> wsum x n k = wsum y n k.
Proof.
  intro H. induction k as [|k IH]; cbn [wsum].
  - f_equal. apply map_ext_in. intros j Hj. apply in_seq in Hj. apply H. lia.
  - rewrite IH by (intros; apply H; lia). now rewrite (H (n + S k)%nat) by lia.
Qed.
Lemma adx_ext d e n k : (1 <= n)%nat -> (forall j, (j < 2 * n + k)%nat -> d j = e j) -> adx_at d n k = adx_at e n k.
Proof.
  intros Hn H. induction k as [|k IH]; cbn [adx_at].
  - f_equal. f_equal. apply map_ext_in. intros j Hj. apply in_seq in Hj. apply H. lia.
  - rewrite IH by (intros; apply H; lia). now rewrite (H (2 * n - 1 + S k)%nat) by lia.
Qed.

(* ------------------------------------------------------------------ *)
(** ** C147 *)

(** Averages: simple and exponential, numba and pandas. *)
Theorem C147_averages : forall (R : Type) (c : R -> Q) (d : R -> option Q) n span,
  causal (fun r => sma (map c r) n) /\ causal (fun r => sma_pd (map d r) n) /\ causal (fun r => sma_nan (map d r) n) /\
  causal_ok (fun r => ewma (map c r) span) /\ causal_ok (fun r => ewma_pd (map d r) span).
Proof.
  intros R c d n span. split; [|split; [|split; [|split]]].
  - unfold sma. apply local_col. intros x y i Hi. destruct (Nat.ltb_spec (i + 1) n); [reflexivity|]. now rewrite last_pre by lia.
  - unfold sma_pd. apply local_col. intros x y i Hi. unfold rolling. destruct (Nat.ltb_spec (i + 1) n); [reflexivity|]. now rewrite mapslice_pre by lia.
  - unfold sma_nan. apply local_col. intros x y i Hi. destruct (Nat.ltb_spec (i + 1) n); [reflexivity|]. now rewrite mapslice_pre by lia.
  - set (al := 2 / (inject_Z span + 1)). apply (causal_ok_of _ (fun r => match r with [] => [] | y :: t => c y / 1 :: ewma_loop al (c y) 1 (map c t) end)).
    + intros x a. unfold ewma. destruct (span <? 1)%Z; [discriminate|]. fold al. destruct x; cbn [map]; intro H; now injection H as <-.
    + intros [|r x] y; [split; reflexivity|]. cbn [app length firstn].
      pose proof (scan_causal (fun s l => ewma_loop al (fst s) (snd s) (map c l)) (fun s v => (c v + (1 - al) * fst s, 1 + (1 - al) * snd s))
        (fun s v => (c v + (1 - al) * fst s) / (1 + (1 - al) * snd s)) ltac:(reflexivity) ltac:(reflexivity) (c r, 1) x y) as [A B]. cbn [fst snd] in A, B.
      now rewrite A, B.
  - apply (causal_ok_of _ (fun r => ewm_loop (1 - 2 / (inject_Z span + 1)) None 1 (map d r))).
    + intros x a. unfold ewma_pd. destruct (span <? 1)%Z; [discriminate|]. intro H; now injection H as <-.
    + set (b := 1 - 2 / (inject_Z span + 1)). intros x y.
      pose proof (scan_causal (fun s l => ewm_loop b (fst s) (snd s) (map d l))
        (fun s v => match fst s, d v with
                    | Some a, Some q => (Some (if Qeqb a q then a else (snd s * b * a + q) / (snd s * b + 1)), snd s * b + 1)
                    | Some a, None => (Some a, snd s * b) | None, _ => (d v, snd s) end)
        (fun s v => match fst s, d v with
                    | Some a, Some q => Some (if Qeqb a q then a else (snd s * b * a + q) / (snd s * b + 1))
                    | Some a, None => Some a | None, _ => d v end) ltac:(reflexivity)) as G.
      cbn beta in G. refine (G _ (None, 1) x y). intros [[a|] w] r t; cbn [fst snd map ewm_loop]; destruct (d r); reflexivity.
Qed.
(** Momentum: rate of change, both RSI implementations, the stochastic oscillator. *)
Theorem C147_momentum : forall (R : Type) (c l h : R -> Q) n, (1 <= n)%nat ->
  causal_ok (fun r => roc (map c r) n) /\ causal (fun r => rsi_wilder (map c r) n) /\ causal_ok (fun r => rsi_pd (map c r) n) /\
  causal (fun r => stoch_k (map c r) (map l r) (map h r) n).
Proof.
  intros R c l h n Hn. split; [|split; [|split]].
  - apply (causal_ok_of _ (fun r => map (fun i => if (i <? n)%nat then None
        else Some ((qn (map c r) i - qn (map c r) (i - n)) / qn (map c r) (i - n) * 100)) (seq 0 (length (map c r))))).
    + intros x a. unfold roc. destruct (existsb _ _); [discriminate|]. intro H; now injection H as <-.
    + apply local_col. intros x y i Hi. now rewrite !qn_pre by lia.
  - unfold rsi_wilder. apply local_col. intros x y i Hi. destruct (Nat.ltb_spec i n); [reflexivity|].
    assert (D : forall j, (j <= i)%nat -> diff (map c (x ++ y)) j = diff (map c x) j). { intros j Hj. unfold diff. now rewrite !qn_pre by lia. }
    assert (E : rsi_sums (map c (x ++ y)) n = rsi_sums (map c x) n). { unfold rsi_sums. apply fold_ext_in. intros u b Hb. apply in_seq in Hb. now rewrite D by lia. }
    rewrite E. f_equal; apply wilder_ext; auto; intros j Hj; unfold gain, loss; now rewrite D by lia.
  - apply (causal_ok_of _ (fun r => map (fun i => if (i <? n)%nat then None
        else Some (rsi_value_pd (wilder n (qsum (map (gain_pd (map c r)) (seq 1 n)) / Qnat n) (gain_pd (map c r)) (i - n))
                                (wilder n (qsum (map (loss_pd (map c r)) (seq 1 n)) / Qnat n) (loss_pd (map c r)) (i - n)))) (seq 0 (length (map c r))))).
    + intros x a. unfold rsi_pd. destruct (length (map c x) <=? n)%nat; [discriminate|]. intro H; now injection H as <-.
    + apply local_col. intros x y i Hi. destruct (Nat.ltb_spec i n); [reflexivity|].
      assert (D : forall j, (j <= i)%nat -> diff (map c (x ++ y)) j = diff (map c x) j). { intros j Hj. unfold diff. now rewrite !qn_pre by lia. }
      f_equal. f_equal; apply wilder_ext; try (f_equal; f_equal; apply map_ext_in; intros j Hj; apply in_seq in Hj); try intros j Hj; unfold gain_pd, loss_pd; now rewrite D by lia.
  - unfold stoch_k. apply local_col. intros x y i Hi. destruct (Nat.ltb_spec (i + 1) n); [reflexivity|].
    assert (E : forall k, (n + k <= length x)%nat -> stoch_ext (map l (x ++ y)) (map h (x ++ y)) n k = stoch_ext (map l x) (map h x) n k).
    { induction k as [|k IH]; intro Hk; cbn [stoch_ext].
      - f_equal; f_equal; rewrite !firstn_map, first_pre by lia; reflexivity.
      - rewrite IH by lia. rewrite !qn_pre by lia. rewrite !last_pre by lia. reflexivity. }
    rewrite E by lia. now rewrite qn_pre by lia.
Qed.
(** Trend, distance to the VWAP, price-volume correlation. *)
Theorem C147_trend : forall (R : Type) (c l h v : R -> Q) (p q : R -> option Q) ln sqrt n is_log, (1 <= n)%nat ->
  causal (fun r => adx_core (map h r) (map l r) (map c r) n) /\ causal_ok (fun r => vwap_distance ln (map c r) (map v r) n is_log) /\
  causal (fun r => pv_correlation sqrt (map p r) (map q r) n).
Proof.
  intros R c l h v p q ln sqrt n is_log Hn. split; [|split].
  - unfold adx_core. apply local_col. intros x y i Hi. destruct (Nat.ltb_spec (i + 1) (2 * n)); [reflexivity|]. apply adx_ext; [exact Hn|]. intros j Hj. unfold dx. destruct (Nat.ltb_spec j n); [reflexivity|].
    rewrite (wsum_ext (true_rng (map h (x ++ y)) (map l (x ++ y)) (map c (x ++ y))) (true_rng (map h x) (map l x) (map c x))) by (intros k Hk; unfold true_rng; now rewrite !qn_pre by lia).
    rewrite (wsum_ext (plus_dm (map h (x ++ y)) (map l (x ++ y))) (plus_dm (map h x) (map l x))) by (intros k Hk; unfold plus_dm; now rewrite !qn_pre by lia).
    rewrite (wsum_ext (minus_dm (map h (x ++ y)) (map l (x ++ y))) (minus_dm (map h x) (map l x))) by (intros k Hk; unfold minus_dm; now rewrite !qn_pre by lia).
    reflexivity.
  - unfold vwap_distance. apply (local_collect NaN). intros x y i Hi. destruct (Nat.ltb_spec (i + 1) n); [reflexivity|].
    assert (E : forall k, (n + k <= length x)%nat -> vwap_state ln (map c (x ++ y)) (map v (x ++ y)) n is_log k = vwap_state ln (map c x) (map v x) n is_log k).
    { induction k as [|k IH]; intro Hk; cbn [vwap_state].
      - rewrite (fold_ext_in (fun s j => s + qn (map c (x ++ y)) j * qn (map v (x ++ y)) j) (fun s j => s + qn (map c x) j * qn (map v x) j)) by (intros u j Hj; apply in_seq in Hj; now rewrite !qn_pre by lia).
        rewrite (fold_ext_in (fun s j => s + qn (map v (x ++ y)) j) (fun s j => s + qn (map v x) j)) by (intros u j Hj; apply in_seq in Hj; now rewrite !qn_pre by lia).
        now rewrite !qn_pre by lia.
      - rewrite IH by lia. now rewrite !qn_pre by lia. }
    now rewrite E by lia.
  - unfold pv_correlation. apply local_col. intros x y i Hi. destruct (Nat.ltb_spec i n); [reflexivity|].
    assert (RT : forall j, (j <= i)%nat -> pv_return (map p (x ++ y)) j = pv_return (map p x) j). { intros [|j] Hj; [reflexivity|]. unfold pv_return. now rewrite !at_pre by lia. }
    rewrite RT, at_pre by lia.
    assert (MF : forall f g, (forall j, (S j <= i)%nat -> f j = g j) -> mono_flag f i n = mono_flag g i n).
    { intros f g E. unfold mono_flag. f_equal.
      assert (X : forall s, (forall j, In j s -> (S j <= i)%nat) -> existsb f s = existsb g s).
      { induction s as [|j s IH]; intro K; [reflexivity|]. cbn [existsb]. rewrite E by (apply K; now left). rewrite IH; [reflexivity|]. intros; apply K; now right. }
      apply X. intros j Hj. apply in_seq in Hj. lia. }
    rewrite (MF (fun j => oleb (nth (S j) (map p (x ++ y)) None) (nth j (map p (x ++ y)) None)) (fun j => oleb (nth (S j) (map p x) None) (nth j (map p x) None))) by (intros j Hj; now rewrite !at_pre by lia).
    rewrite (MF (fun j => oleb (nth j (map q (x ++ y)) None) (nth (S j) (map q (x ++ y)) None)) (fun j => oleb (nth j (map q x) None) (nth (S j) (map q x) None))) by (intros j Hj; now rewrite !at_pre by lia).
    rewrite (MF (fun j => oleb (nth (S j) (map q (x ++ y)) None) (nth j (map q (x ++ y)) None)) (fun j => oleb (nth (S j) (map q x) None) (nth j (map q x) None))) by (intros j Hj; now rewrite !at_pre by lia).
    assert (V : valid_pairs (map p (x ++ y)) (map q (x ++ y)) i n = valid_pairs (map p x) (map q x) i n).
    { unfold valid_pairs. rewrite !flat_map_concat_map. f_equal. apply map_ext_in. intros j Hj. apply in_seq in Hj. rewrite RT by lia. now rewrite at_pre by lia. }
    now rewrite V.
Qed.
Lemma ss_right_pre l m v : (ss_right (l ++ m) v = ss_right l v /\ (ss_right l v < length l)%nat) \/ (ss_right l v = length l /\ (length l <= ss_right (l ++ m) v)%nat).
Proof.
  induction l as [|a l IH]; [right; cbn; lia|]. cbn [app ss_right length]. destruct (a <=? v)%Z; [|left; lia]. destruct IH as [[-> H]|[-> H]]; [left|right]; lia.
Qed.
Lemma ss_left_pre l m v : (ss_left (l ++ m) v = ss_left l v /\ (ss_left l v < length l)%nat) \/ (ss_left l v = length l /\ (length l <= ss_left (l ++ m) v)%nat).
Proof.
  induction l as [|a l IH]; [right; cbn; lia|]. cbn [app ss_left length]. destruct (a <? v)%Z; [|left; lia]. destruct IH as [[-> H]|[-> H]]; [left|right]; lia.
Qed.
Lemma shift_pre {R} (d : R -> option Q) x y periods i : (0 <= periods)%Z -> (i < length x)%nat ->
  nth i (shift (map d (x ++ y)) periods) None = nth i (shift (map d x) periods) None.
Proof.
  intros Hp Hi. unfold shift.
  assert (G : forall l : list (option Q), (i < length l)%nat -> nth i (map (fun i => if (Z.of_nat i - periods <? 0)%Z then None else nth (Z.to_nat (Z.of_nat i - periods)) l None) (seq 0 (length l))) None
     = if (Z.of_nat i - periods <? 0)%Z then None else nth (Z.to_nat (Z.of_nat i - periods)) l None).
  { intros l Hl. set (f := fun i => _). rewrite (nth_indep _ None (f 0%nat)) by (rewrite map_length, seq_length; auto). rewrite map_nth, seq_nth by auto. reflexivity. }
  rewrite !G by (rewrite ?map_length, ?app_length; lia). destruct (Z.ltb_spec (Z.of_nat i - periods) 0); [reflexivity|]. apply at_pre. lia.
Qed.
Lemma nth_app_pre {A} (l m : list A) i d : (i < length l)%nat -> nth i (l ++ m) d = nth i l d.
Proof. apply app_nth1. Qed.
Lemma causal_nth {R B} (f : list R -> list B) d x y i : causal f -> (i < length x)%nat -> nth i (f (x ++ y)) d = nth i (f x) d.
Proof.
  intros H Hi. destruct (H x y) as [L E]. rewrite <- E. rewrite <- (firstn_skipn (length x) (f (x ++ y))) at 1. apply app_nth1. rewrite E. lia.
Qed.
Lemma shift_causal {R} (d : R -> option Q) periods : (0 <= periods)%Z -> causal (fun r => shift (map d r) periods).
Proof.
  intro Hp. unfold shift. apply local_col. intros x y i Hi. cbv zeta. destruct (Z.ltb_spec (Z.of_nat i - periods) 0); [reflexivity|]. apply at_pre. lia.
Qed.
Lemma len_shift l periods : length (shift l periods) = length l.
Proof. unfold shift. now rewrite map_length, seq_length. Qed.
Lemma firstn_combine {A B} n (l : list A) (m : list B) : firstn n (combine l m) = combine (firstn n l) (firstn n m).
Proof. revert l m. induction n as [|n IH]; intros [|a l] [|b m]; try reflexivity. cbn [combine firstn]. now rewrite IH. Qed.
Lemma firstn_map_app {R B} (d : R -> B) x y : firstn (length x) (map d (x ++ y)) = map d x.
Proof. rewrite firstn_map, firstn_app, Nat.sub_diag, firstn_all2 by lia. cbn [firstn]. now rewrite app_nil_r. Qed.
Lemma return_causal {R} (f : list R -> list (option Q)) periods : (0 <= periods)%Z -> causal f -> causal (fun r => simple_return (f r) periods).
Proof.
  intros Hp Hf x y. unfold simple_return. destruct (Hf x y) as [L E]. split; [rewrite map_length, combine_length, len_shift; lia|].
  rewrite firstn_map, firstn_combine, E. do 2 f_equal.
  destruct (Hf x []) as [_ _]. pose proof (shift_causal (fun o : option Q => o) periods Hp (f x) (skipn (length x) (f (x ++ y)))) as [L2 E2]. rewrite !map_id in E2.
  rewrite <- E in E2 at 2. rewrite firstn_skipn in E2. rewrite L in E2. exact E2.
Qed.
Lemma ffill_causal {R} (d : R -> option Q) prev : causal (fun r => ffill prev (map d r)).
Proof.
  exact (scan_causal (fun s l => ffill s (map d l)) (fun s r => match d r with Some v => Some v | None => s end) (fun s r => match d r with Some v => Some v | None => s end)
    ltac:(reflexivity) ltac:(intros s r t; cbn [map ffill]; destruct (d r); reflexivity) prev).
Qed.
(** Lags, returns and normalised values. *)
Theorem C147_returns : forall (R : Type) (c : R -> Q) (d : R -> option Q) (t : R -> Z) ln sqrt n ddof periods W is_log, (0 <= periods)%Z ->
  causal (fun r => shift (map d r) periods) /\ causal (fun r => simple_return (map d r) periods) /\
  causal (fun r => pct_change (map c r) n) /\ causal (fun r => pct_pd (map d r) periods) /\
  causal_ok (fun r => comp_lagged_returns ln (map t r) (map c r) W is_log) /\
  causal (fun r => comp_zscore sqrt (map c r) n ddof) /\ causal (fun r => mr_zscore sqrt (map d r) n) /\ causal (fun r => comp_burst_ratio (map c r) n).
Proof.
  intros R c d t ln sqrt n ddof periods W is_log Hp. split; [|split; [|split; [|split; [|split; [|split; [|split]]]]]].
  - now apply shift_causal.
  - apply return_causal; auto. intros x y. now rewrite map_length, firstn_map_app.
  - unfold pct_change. apply local_col. intros x y i Hi. now rewrite !qn_pre by lia.
  - apply return_causal; auto. apply ffill_causal.
  - apply (causal_ok_of _ (fun r => map (fun i =>
            if (i <? ss_left (map f64 (map t r)) (f64 (f64 (nth 0 (map t r) 0%Z) + W)))%nat then NaN
            else let lag := (Z.of_nat (ss_right (map f64 (map t r)) (f64 (f64 (nth i (map t r) 0%Z) - W))) - 1)%Z in
                 if ((0 <=? lag) && (lag <? Z.of_nat i))%Z
                 then lag_return ln is_log (qn (map c r) i) (qn (map c r) (Z.to_nat lag)) else NaN) (seq 0 (length (map c r))))).
    + intros x a. unfold comp_lagged_returns. destruct (W <=? 0)%Z; [discriminate|]. intro H; now injection H as <-.
    + apply local_col. intros x y i Hi. rewrite !at_pre by lia. rewrite (map_app t x y), (map_app f64).
      set (v0 := f64 (f64 (nth 0 (map t x) 0%Z) + W)). set (v := f64 (f64 (nth i (map t x) 0%Z) - W)).
      pose proof (ss_left_pre (map f64 (map t x)) (map f64 (map t y)) v0) as A. pose proof (ss_right_pre (map f64 (map t x)) (map f64 (map t y)) v) as B.
      rewrite !map_length in A, B. cbv zeta.
      assert (A' : (i <? ss_left (map f64 (map t x) ++ map f64 (map t y)) v0)%nat = (i <? ss_left (map f64 (map t x)) v0)%nat).
      { destruct A as [[-> _]|[E K]]; [reflexivity|]. rewrite E. transitivity true; [|symmetry]; apply Nat.ltb_lt; lia. }
      rewrite A'. clear A A'. destruct (i <? ss_left (map f64 (map t x)) v0)%nat; [reflexivity|]. destruct B as [[-> K]|[E K]].
      * set (lag := (Z.of_nat (ss_right (map f64 (map t x)) v) - 1)%Z). destruct (Z.leb_spec 0 lag); [|reflexivity]. destruct (Z.ltb_spec lag (Z.of_nat i)); [|reflexivity]. cbn [andb].
        now rewrite !qn_pre by lia.
      * rewrite E. destruct (Z.ltb_spec (Z.of_nat (length x) - 1) (Z.of_nat i)); [lia|]. rewrite andb_false_r.
        destruct (Z.ltb_spec (Z.of_nat (ss_right (map f64 (map t x) ++ map f64 (map t y)) v) - 1) (Z.of_nat i)); [lia|]. now rewrite andb_false_r.
  - unfold comp_zscore. apply local_col. intros x y i Hi. destruct (Nat.ltb_spec (i + 1) n); [reflexivity|]. rewrite last_pre by lia. now rewrite qn_pre by lia.
  - unfold mr_zscore. apply local_col. intros x y i Hi. unfold rolling. rewrite at_pre by lia. destruct (Nat.ltb_spec (i + 1) n); [reflexivity|]. now rewrite mapslice_pre by lia.
  - unfold comp_burst_ratio. apply local_col. intros x y i Hi. destruct (Nat.ltb_spec (i + 1) n); [reflexivity|]. rewrite last_pre by lia. now rewrite qn_pre by lia.
Qed.
Lemma known_pre {R} (d : R -> option Q) x y i : (i < length x)%nat -> known (map d (x ++ y)) i = known (map d x) i.
Proof. apply at_pre. Qed.
Lemma olast_pre {R} (d : R -> option Q) x y i n : (i < length x)%nat -> (n <= i + 1)%nat -> olast (map d (x ++ y)) i n = olast (map d x) i n.
Proof. intros H K. unfold olast. apply mapslice_pre. lia. Qed.
Lemma true_range_val {R} (h l c : R -> option Q) r tr : true_range (map h r) (map l r) (map c r) = Ok tr -> tr = map (tr_at (map h r) (map l r) (map c r)) (seq 0 (length r)).
Proof. unfold true_range. rewrite !map_length, Nat.eqb_refl. cbn [andb]. intro H; now injection H as <-. Qed.
Lemma tr_causal {R} (h l c : R -> option Q) : causal (fun r => map (tr_at (map h r) (map l r) (map c r)) (seq 0 (length r))).
Proof.
  apply local_causal. intros x y i Hi. destruct i as [|i]; unfold tr_at; now rewrite !known_pre by lia.
Qed.
(** Volatility: exponential standard deviations, true range and ATR, realised volatility,
    Bollinger bands, Parkinson range, rolling variance. *)
Theorem C147_volatility : forall (R : Type) (c cl ch : R -> Q) (d h l k : R -> option Q) (t : R -> Z) sqrt exp ln n span hl floor kk ddof mp ema norm smp, (1 <= n)%nat ->
  causal (fun r => ewms sqrt (map d r) span) /\ causal_ok (fun r => ewmst_mean0 sqrt exp (map t r) (map d r) hl floor) /\
  causal_ok (fun r => ewmst sqrt exp (map t r) (map d r) hl floor) /\
  causal_ok (fun r => true_range (map h r) (map l r) (map k r)) /\ causal_ok (fun r => atr (map h r) (map l r) (map k r) n ema norm) /\
  causal (fun r => realized_vol sqrt (map d r) n smp) /\ causal (fun r => rv_pd sqrt (map d r) n smp) /\
  causal_ok (fun r => bollinger_percent_b sqrt (map c r) n kk) /\ causal_ok (fun r => parkinson_range ln (map ch r) (map cl r)) /\
  causal (fun r => rolling_variance (map d r) n ddof mp).
Proof.
  intros R c cl ch d h l k t sqrt exp ln n span hl floor kk ddof mp ema norm smp Hn. split; [|split; [|split; [|split; [|split; [|split; [|split; [|split; [|split]]]]]]]].
  - unfold ewms. destruct (span <=? 1)%Z.
    + intros x y. rewrite repeat_length, !map_length. split; [reflexivity|]. rewrite app_length, repeat_app, firstn_app, repeat_length, Nat.sub_diag, firstn_all2 by (rewrite repeat_length; lia). cbn [firstn]. apply app_nil_r.
    + exact (scan_causal (fun s r => ew_loop sqrt (1 - 2 / (inject_Z span + 1)) s (map d r)) (fun s r => ew_step (1 - 2 / (inject_Z span + 1)) s (d r)) (fun s r => ew_out sqrt (ew_step (1 - 2 / (inject_Z span + 1)) s (d r))) ltac:(reflexivity) ltac:(reflexivity) (mkEW 0 0 0 0)).
  - apply (causal_ok_of _ (fun r => map (fun i => match i with O => None | S _ => m0_out sqrt floor (m0_state exp (map t r) (map d r) hl i) end) (seq 0 (length (map d r))))).
    + intros x a. unfold ewmst_mean0. destruct (_ && _)%bool; [discriminate|]. intro H; now injection H as <-.
    + apply local_col. intros x y i Hi. destruct i as [|i]; [reflexivity|]. f_equal.
      assert (G : forall j, (j < length x)%nat -> m0_state exp (map t (x ++ y)) (map d (x ++ y)) hl j = m0_state exp (map t x) (map d x) hl j).
      { induction j as [|j IH]; intro Hj; [reflexivity|]. cbn [m0_state]. rewrite IH by lia. rewrite known_pre by lia. unfold ts_alpha. now rewrite !at_pre by lia. }
      now apply G.
  - apply (causal_ok_of _ (fun r => map (fun i => match i with O => None | S _ => et_out sqrt floor (et_state exp (map t r) (map d r) hl i) end) (seq 0 (length (map d r))))).
    + intros x a. unfold ewmst. destruct (_ && _)%bool; [discriminate|]. intro H; now injection H as <-.
    + apply local_col. intros x y i Hi. destruct i as [|i]; [reflexivity|]. f_equal.
      assert (G : forall j, (j < length x)%nat -> et_state exp (map t (x ++ y)) (map d (x ++ y)) hl j = et_state exp (map t x) (map d x) hl j).
      { induction j as [|j IH]; intro Hj; [reflexivity|]. cbn [et_state]. rewrite IH by lia. rewrite known_pre by lia. unfold ts_alpha. now rewrite !at_pre by lia. }
      now apply G.
  - apply (causal_ok_of _ (fun r => map (tr_at (map h r) (map l r) (map k r)) (seq 0 (length r)))); [|apply tr_causal]. intros x a. apply true_range_val.
  - set (TR := fun r => map (tr_at (map h r) (map l r) (map k r)) (seq 0 (length r))).
    apply (causal_ok_of _ (fun r => map (fun i =>
              let a := if ((length (map h r) <? n) || (i + 1 <? n))%nat%bool then None
                       else if ema then atr_ema (TR r) n (i + 1 - n)
                       else atr_sma (map h r) (map l r) (map k r) (TR r) n i in
              if norm then atr_norm (map h r) (map l r) i a else a) (seq 0 (length (map h r))))).
    + intros x a. unfold atr. destruct (true_range (map h x) (map l x) (map k x)) as [tr|] eqn:E; [|discriminate]. apply true_range_val in E. fold (TR x) in E. subst tr. intro H; now injection H as <-.
    + apply local_col. intros x y i Hi. cbv zeta. rewrite !map_length, app_length.
      assert (TC : causal TR) by apply tr_causal. destruct (TC x y) as [TL TE].
      assert (TN : forall j, (j < length x)%nat -> known (TR (x ++ y)) j = known (TR x) j) by (intros; unfold known; now apply causal_nth).
      assert (TS : forall s m, (s + m <= length x)%nat -> firstn m (skipn s (TR (x ++ y))) = firstn m (skipn s (TR x))).
      { intros s m Hsm. rewrite <- (firstn_skipn (length x) (TR (x ++ y))), TE. apply slice_pre. lia. }
      assert (A : (if ((length x + length y <? n) || (i + 1 <? n))%nat%bool then None else if ema then atr_ema (TR (x ++ y)) n (i + 1 - n) else atr_sma (map h (x ++ y)) (map l (x ++ y)) (map k (x ++ y)) (TR (x ++ y)) n i)
                = (if ((length x <? n) || (i + 1 <? n))%nat%bool then None else if ema then atr_ema (TR x) n (i + 1 - n) else atr_sma (map h x) (map l x) (map k x) (TR x) n i)).
      { destruct (Nat.ltb_spec (i + 1) n); [now rewrite !orb_true_r|]. destruct (Nat.ltb_spec (length x) n); [lia|]. destruct (Nat.ltb_spec (length x + length y) n); [lia|]. cbn [orb].
        destruct ema.
        - assert (G : forall j, (n + j <= length x)%nat -> atr_ema (TR (x ++ y)) n j = atr_ema (TR x) n j).
          { induction j as [|j IH]; intro Hj; cbn [atr_ema]; [f_equal; apply (TS 0%nat n); lia|]. now rewrite TN, IH by lia. }
          apply G; lia.
        - unfold atr_sma, olast. rewrite !known_pre by lia. rewrite TS by lia. reflexivity. }
      rewrite A. unfold atr_norm. now rewrite !known_pre by lia.
  - unfold realized_vol. apply local_col. intros x y i Hi. destruct (Nat.ltb_spec (i + 1) n); [reflexivity|]. now rewrite olast_pre by lia.
  - unfold rv_pd. apply local_col. intros x y i Hi. destruct (Nat.ltb_spec (i + 1) n); [reflexivity|]. now rewrite mapslice_pre by lia.
  - apply (causal_ok_of _ (fun r => map (fun i => if (i + 1 <? n)%nat then None
                           else bb_value sqrt (qn (map c r) i) (bb_sums (map c r) n (i + 1 - n)) n kk) (seq 0 (length (map c r))))).
    + intros x a. unfold bollinger_percent_b. destruct (Nat.ltb_spec (length (map c x)) n) as [K|K].
      * intro H; injection H as <-. set (m := length (map c x)) in *. clearbody m.
        assert (G : forall s j, (s + j < n)%nat -> repeat None j = map (fun i => if (i + 1 <? n)%nat then None else bb_value sqrt (qn (map c x) i) (bb_sums (map c x) n (i + 1 - n)) n kk) (seq s j)).
        { intros s j. revert s. induction j as [|j IH]; intros s Hj; [reflexivity|]. cbn [repeat seq map]. destruct (Nat.ltb_spec (s + 1) n); [|lia]. f_equal. apply IH. lia. }
        apply G. lia.
      * destruct (n =? 1)%nat; [discriminate|]. intro H; now injection H as <-.
    + apply local_col. intros x y i Hi. destruct (Nat.ltb_spec (i + 1) n); [reflexivity|]. rewrite qn_pre by lia. f_equal.
      assert (G : forall j, (n + j <= length x)%nat -> bb_sums (map c (x ++ y)) n j = bb_sums (map c x) n j).
      { induction j as [|j IH]; intro Hj; cbn [bb_sums].
        - apply fold_ext_in. intros u b Hb. apply in_seq in Hb. now rewrite !qn_pre by lia.
        - rewrite IH by lia. now rewrite !qn_pre by lia. }
      apply G. lia.
  - unfold parkinson_range. apply (local_collect 0). intros x y i Hi. now rewrite !qn_pre by lia.
  - unfold rolling_variance. apply local_col. intros x y i Hi. rewrite !map_length, app_length.
    destruct (Nat.ltb_spec (i + 1) n); [now rewrite !orb_true_r|]. destruct (Nat.ltb_spec (length x) n); [lia|]. destruct (Nat.ltb_spec (length x + length y) n); [lia|]. cbn [orb]. now rewrite olast_pre by lia.
Qed.
Lemma prefix_ext f g k : (forall j, (j < k)%nat -> f j = g j) -> prefix f k = prefix g k.
Proof. intro H. induction k as [|k IH]; [reflexivity|]. cbn [prefix]. rewrite IH by (intros; apply H; lia). now rewrite H by lia. Qed.
Lemma all_none {B} n m (f : nat -> option B) : (m < n)%nat -> repeat None m = map (fun i => if (i + 1 <? n)%nat then None else f i) (seq 0 m).
Proof.
  intro H. assert (G : forall s j, (s + j < n)%nat -> repeat None j = map (fun i => if (i + 1 <? n)%nat then None else f i) (seq s j)).
  { intros s j. revert s. induction j as [|j IH]; intros s Hj; [reflexivity|]. cbn [repeat seq map]. destruct (Nat.ltb_spec (s + 1) n); [|lia]. f_equal. apply IH. lia. }
  apply G. lia.
Qed.
Lemma rolling_causal {R A} (f : list R -> list (option A)) n x y i : causal f -> (i < length x)%nat -> rolling (f (x ++ y)) n i = rolling (f x) n i.
Proof.
  intros Hf Hi. unfold rolling. destruct (Nat.ltb_spec (i + 1) n); [reflexivity|]. destruct (Hf x y) as [L E]. f_equal.
  rewrite <- (firstn_skipn (length x) (f (x ++ y))), E. apply slice_pre. lia.
Qed.
Lemma map_causal {R B} (d : R -> B) : causal (fun r => map d r).
Proof. intros x y. now rewrite map_length, firstn_map_app. Qed.
(** Volume flow, durations, runs, higher moments, trend slope. *)
Theorem C147_others : forall (R : Type) (c : R -> Q) (d b s : R -> option Q) (t : R -> Z) (fl : R -> bool) sqrt ln angle f n recent W age, (1 <= n)%nat ->
  causal (fun r => vpin (map b r) (map s r) n) /\ causal (fun r => vpin_pd (map b r) (map s r) n) /\
  causal (fun r => comp_flow_acceleration ln (map c r) n recent) /\
  causal (fun r => dir_run_len (map d r)) /\ causal (fun r => cusum_age (map fl r) age) /\
  causal (fun r => bar_rate (map t r) W) /\ causal (fun r => bar_duration (map t r) n) /\
  causal (fun r => bipower f (map d r) n) /\ causal (fun r => kurtosis_pd (map d r) n) /\
  causal (fun r => trend_slope ln angle (map d r) n) /\ causal_ok (fun r => hurst sqrt ln (map d r) n).
Proof.
  intros R c d b s t fl sqrt ln angle f n recent W age Hn. split; [|split; [|split; [|split; [|split; [|split; [|split; [|split; [|split; [|split]]]]]]]]].
  - unfold vpin. apply local_col. intros x y i Hi. destruct (Nat.leb_spec n (i + 1)); [|reflexivity]. cbn [andb].
    assert (VN : forall j, (j < length x)%nat -> vp_nan (map b (x ++ y)) (map s (x ++ y)) j = vp_nan (map b x) (map s x) j) by (intros j Hj; unfold vp_nan; now rewrite !at_pre by lia).
    assert (NC : forall k, (k <= length x)%nat -> nan_count (map b (x ++ y)) (map s (x ++ y)) k = nan_count (map b x) (map s x) k).
    { induction k as [|k IH]; intro Hk; [reflexivity|]. cbn [nan_count]. now rewrite IH, VN by lia. }
    assert (VB : forall j, (j < length x)%nat -> vp_val (map b (x ++ y)) (map s (x ++ y)) (map b (x ++ y)) j = vp_val (map b x) (map s x) (map b x) j) by (intros j Hj; unfold vp_val; now rewrite VN, at_pre by lia).
    assert (VS : forall j, (j < length x)%nat -> vp_val (map b (x ++ y)) (map s (x ++ y)) (map s (x ++ y)) j = vp_val (map b x) (map s x) (map s x) j) by (intros j Hj; unfold vp_val; now rewrite VN, at_pre by lia).
    rewrite !NC by lia. cbv zeta.
    assert (PB : forall k, (k <= length x)%nat -> prefix (vp_val (map b (x ++ y)) (map s (x ++ y)) (map b (x ++ y))) k = prefix (vp_val (map b x) (map s x) (map b x)) k) by (intros k Hk; apply prefix_ext; intros j Hj; apply VB; lia).
    assert (PS : forall k, (k <= length x)%nat -> prefix (vp_val (map b (x ++ y)) (map s (x ++ y)) (map s (x ++ y))) k = prefix (vp_val (map b x) (map s x) (map s x)) k) by (intros k Hk; apply prefix_ext; intros j Hj; apply VS; lia).
    assert (PA : forall k, (k <= length x)%nat -> prefix (vp_abs (map b (x ++ y)) (map s (x ++ y))) k = prefix (vp_abs (map b x) (map s x)) k) by (intros k Hk; apply prefix_ext; intros j Hj; unfold vp_abs; now rewrite VB, VS by lia).
    rewrite !PB, !PS, !PA by lia. reflexivity.
  - unfold vpin_pd. cbv zeta. apply local_col. intros x y i Hi.
    assert (C2 : forall g, causal (fun r => col2 g (map b r) (map s r))).
    { intro g. unfold col2. apply (causal_ext _ (fun r => map (fun v => match b v, s v with Some a, Some a' => Some (g a a') | _, _ => None end) r)); [|apply map_causal].
      intro r. induction r as [|v r IH]; [reflexivity|]. cbn [map combine]. rewrite IH. now destruct (b v), (s v). }
    rewrite (rolling_causal (fun r => col2 (fun p q => Qabs (p - q)) (map b r) (map s r)) n x y i (C2 _) Hi).
    now rewrite (rolling_causal (fun r => col2 Qplus (map b r) (map s r)) n x y i (C2 _) Hi).
  - destruct (Nat.leb_spec n recent) as [K|K].
    + apply (causal_ext _ (fun r => repeat None (length r))).
      * intro r. unfold comp_flow_acceleration. destruct (Nat.leb_spec n recent); [|lia]. rewrite orb_true_r. now rewrite map_length.
      * intros x y. rewrite repeat_length. split; [reflexivity|]. rewrite app_length, repeat_app, firstn_app, repeat_length, Nat.sub_diag, firstn_all2 by (rewrite repeat_length; lia). cbn [firstn]. apply app_nil_r.
    + apply (causal_ext _ (fun r => map (fun i => if (i + 1 <? n)%nat then None else
           Some (ln (((prefix (qn (map c r)) (i + 1) - prefix (qn (map c r)) (i + 1 - recent)) + (1 # 1000000000000)) /
                     ((prefix (qn (map c r)) (i + 1 - recent) - prefix (qn (map c r)) (i + 1 - n)) + (1 # 1000000000000))))) (seq 0 (length (map c r))))).
      * intro r. unfold comp_flow_acceleration. destruct (Nat.leb_spec n recent); [lia|]. rewrite orb_false_r. destruct (Nat.ltb_spec (length (map c r)) n); [now apply all_none|].
        apply map_ext. intro i. destruct (Nat.ltb_spec i (n - 1)); destruct (Nat.ltb_spec (i + 1) n); try lia; reflexivity.
      * apply local_col. intros x y i Hi. destruct (Nat.ltb_spec (i + 1) n); [reflexivity|].
        assert (P : forall k, (k <= length x)%nat -> prefix (qn (map c (x ++ y))) k = prefix (qn (map c x)) k) by (intros k Hk; apply prefix_ext; intros j Hj; apply qn_pre; lia).
        now rewrite !P by lia.
  - unfold dir_run_len. apply local_col. intros x y i Hi. destruct i as [|i]; [reflexivity|]. do 2 f_equal. unfold run_state. rewrite at_pre by lia. apply fold_ext_in. intros u j Hj. apply in_seq in Hj. unfold run_step. now rewrite at_pre by lia.
  - unfold cusum_age. apply local_col. intros x y i Hi. do 2 f_equal. f_equal. unfold flag_count.
    assert (K : forall j, (j <= i)%nat -> flag_key (map fl (x ++ y)) j = flag_key (map fl x) j) by (intros j Hj; unfold flag_key; now rewrite !firstn_map, first_pre by lia).
    f_equal. apply filter_ext_in. intros j Hj. apply in_seq in Hj. now rewrite !K by lia.
  - unfold bar_rate. apply local_col. intros x y i Hi. do 3 f_equal. unfold rate_count. f_equal. apply filter_ext_in. intros j Hj. apply in_seq in Hj. now rewrite !at_pre by lia.
  - unfold bar_duration. apply local_col. intros x y i Hi. now rewrite !at_pre by lia.
  - unfold bipower. apply local_col. intros x y i Hi. destruct (Nat.ltb_spec i n); [reflexivity|].
    rewrite (map_ext_in (fun j => nth j (map d (x ++ y)) None) (fun j => nth j (map d x) None)); [reflexivity|]. intros j Hj. apply in_seq in Hj. apply at_pre. lia.
  - unfold kurtosis_pd. apply local_col. intros x y i Hi. now rewrite (rolling_causal (fun r => map d r) n x y i (map_causal d) Hi).
  - unfold trend_slope. apply local_col. intros x y i Hi. rewrite !map_map. now rewrite (rolling_causal (fun r => map (fun v => log_price ln (d v)) r) n x y i (map_causal _) Hi).
  - unfold hurst. apply (local_collect None). intros x y i Hi. now rewrite (rolling_causal (fun r => map d r) n x y i (map_causal d) Hi).
Qed.
(** The CUSUM test on growing windows; the rolling one once there are warm-up plus two
    prices. *)
Lemma cs_ext sqrt ln (y z : list Q) t sigma : (forall j, (j <= t)%nat -> qn y j = qn z j) -> comp_max_s_nt sqrt ln y t sigma = comp_max_s_nt sqrt ln z t sigma.
Proof.
  intro H. unfold comp_max_s_nt. destruct (_ || _)%bool; [reflexivity|]. apply fold_ext_in. intros u j Hj. apply in_seq in Hj. unfold cs_step. now rewrite !H by lia.
Qed.
Lemma sg_ext sqrt (y z : list Q) t : (forall j, (j <= t)%nat -> qn y j = qn z j) -> cs_sigma sqrt y t = cs_sigma sqrt z t.
Proof.
  intro H. unfold cs_sigma, cum_sq_diff. do 3 f_equal. apply map_ext_in. intros j Hj. apply in_seq in Hj. now rewrite !H by lia.
Qed.
Lemma cd_val sqrt ln p w a : cusum_developing sqrt ln p w = Ok a -> a = map (fun t => if (t <? w)%nat then None else Some (comp_max_s_nt sqrt ln (map ln p) t (cs_sigma sqrt (map ln p) t))) (seq 0 (length p)).
Proof. unfold cusum_developing. destruct (_ && _)%bool; [discriminate|]. rewrite map_length. intro H; now injection H as <-. Qed.
Lemma cd_ext sqrt ln (y z : list Q) t : (forall j, (j <= t)%nat -> qn y j = qn z j) -> comp_max_s_nt sqrt ln y t (cs_sigma sqrt y t) = comp_max_s_nt sqrt ln z t (cs_sigma sqrt z t).
Proof. intro H. rewrite (sg_ext sqrt y z t H). now apply cs_ext. Qed.
Lemma rolling_val sqrt ln p w0 warmup a : (warmup + 2 <= length p)%nat -> cusum_rolling sqrt ln p w0 warmup = Ok a ->
  let w := if (w0 <? warmup + 2)%nat then (warmup + 2)%nat else w0 in
  a = map (fun i => if (i <? warmup)%nat then None else if (i <=? w)%nat then Some (comp_max_s_nt sqrt ln (map ln p) i (cs_sigma sqrt (map ln p) i))
                    else Some (cusum_last sqrt ln (price_window p w i))) (seq 0 (length p)).
Proof.
  intros Hl. unfold cusum_rolling. destruct (existsb _ _); [discriminate|]. set (w := if (w0 <? warmup + 2)%nat then (warmup + 2)%nat else w0). cbv zeta.
  assert (Hw : (warmup + 2 <= w)%nat) by (unfold w; destruct (Nat.ltb_spec w0 (warmup + 2)); lia).
  destruct (Nat.ltb_spec (length p) (warmup + 2)); [lia|]. destruct (Nat.ltb_spec w (length p)) as [K|K].
  - destruct (cusum_developing sqrt ln (price_window p w w) warmup) as [fst0|] eqn:E; [|discriminate]. apply cd_val in E. intro H0; injection H0 as <-. apply map_ext_in. intros i Hi. apply in_seq in Hi.
    destruct (Nat.leb_spec i w) as [Ki|Ki].
    + subst fst0. unfold price_window. replace (w - w)%nat with 0%nat by lia. cbn [skipn].
      set (g := fun t => _). assert (Lp : length (firstn (w + 1) p) = (w + 1)%nat) by (rewrite firstn_length; lia). rewrite Lp.
      rewrite (nth_indep _ None (g 0%nat)) by (rewrite map_length, seq_length; lia). rewrite map_nth, seq_nth by lia. unfold g. cbn [Nat.add].
      destruct (i <? warmup)%nat; [reflexivity|]. f_equal. apply cd_ext. intros j Hj. unfold qn. rewrite <- (firstn_skipn (w + 1) p) at 2. rewrite map_app, app_nth1 by (rewrite map_length, Lp; lia). reflexivity.
    + destruct (Nat.ltb_spec i warmup); [lia|]. reflexivity.
  - intro H0. apply cd_val in H0. subst a. apply map_ext_in. intros i Hi. apply in_seq in Hi. destruct (i <? warmup)%nat; [reflexivity|]. destruct (Nat.leb_spec i w); [reflexivity|lia].
Qed.
Theorem C147_cusum : forall (R : Type) (c : R -> Q) sqrt ln window warmup,
  causal_ok (fun r => cusum_developing sqrt ln (map c r) warmup) /\
  (forall x y a b, (warmup + 2 <= length x)%nat -> cusum_rolling sqrt ln (map c x) window warmup = Ok a -> cusum_rolling sqrt ln (map c (x ++ y)) window warmup = Ok b ->
     length a = length x /\ firstn (length x) b = a).
Proof.
  intros R c sqrt ln window warmup. split.
  - apply (causal_ok_of _ (fun r => map (fun t => if (t <? warmup)%nat then None else Some (comp_max_s_nt sqrt ln (map ln (map c r)) t (cs_sigma sqrt (map ln (map c r)) t))) (seq 0 (length (map c r))))).
    + intros x a. apply cd_val.
    + apply local_col. intros x y i Hi. destruct (i <? warmup)%nat; [reflexivity|]. f_equal. apply cd_ext. intros j Hj. rewrite !map_map. apply (qn_pre (fun v => ln (c v))). lia.
  - intros x y a b Hl Ha Hb. apply rolling_val in Ha; [|now rewrite map_length]. apply rolling_val in Hb; [|rewrite map_length, app_length; lia].
    set (w := if (window <? warmup + 2)%nat then (warmup + 2)%nat else window) in *. subst a b.
    assert (G : causal (fun r => map (fun i => if (i <? warmup)%nat then None else if (i <=? w)%nat then Some (comp_max_s_nt sqrt ln (map ln (map c r)) i (cs_sigma sqrt (map ln (map c r)) i))
                    else Some (cusum_last sqrt ln (price_window (map c r) w i))) (seq 0 (length (map c r))))).
    { apply local_col. clear. intros x y i Hi. destruct (i <? warmup)%nat; [reflexivity|]. destruct (Nat.leb_spec i w).
      - f_equal. apply cd_ext. intros j Hj. rewrite !map_map. apply (qn_pre (fun v => ln (c v))). lia.
      - do 2 f_equal. unfold price_window. apply mapslice_pre. lia. }
    exact (G x y).
Qed.
(** The variance ratio, for tables of at least window plus four rows. *)
Theorem C147_variance_ratio : forall (R : Type) (p : R -> option Q) ln window ddof is_log x y, (window + 4 <= length x)%nat ->
  let f r := variance_ratio ln (map p r) window ddof is_log in length (f x) = length x /\ firstn (length x) (f (x ++ y)) = f x.
Proof.
  intros R p ln window ddof is_log x y Hl f.
  set (r1 := fun r : list R => map (vr_ret1 ln (map p r) is_log) (seq 0 (length r))). set (r4 := fun r => map (vr_ret4 (r1 r)) (seq 0 (length r))).
  assert (C1 : causal r1). { apply local_causal. intros u v i Hi. destruct i as [|i]; unfold vr_ret1; [reflexivity|]. now rewrite !known_pre by lia. }
  assert (C4 : causal r4). { apply local_causal. intros u v i Hi. unfold vr_ret4, known. rewrite !(causal_nth r1) by (auto; lia). reflexivity. }
  assert (RV : forall g : list R -> list (option Q), causal g -> causal (fun r => rolling_variance (g r) window ddof 1)).
  { intros g Cg u v. destruct (Cg u v) as [L E]. unfold rolling_variance. split; [rewrite map_length, seq_length; exact L|].
    assert (Lv : length (g (u ++ v)) = (length u + length v)%nat) by (destruct (Cg (u ++ v) []) as [Q0 _]; now rewrite Q0, app_length).
    rewrite Lv, L. rewrite seq_app, map_app, firstn_app, map_length, seq_length, Nat.sub_diag. cbn [firstn]. rewrite app_nil_r, firstn_all2 by (rewrite map_length, seq_length; lia).
    apply map_ext_in. intros i Hi. apply in_seq in Hi. destruct (Nat.ltb_spec (i + 1) window); [now rewrite !orb_true_r|].
    destruct (Nat.ltb_spec (length u) window); [lia|]. destruct (Nat.ltb_spec (length u + length v) window); [lia|]. cbn [orb].
    unfold olast. rewrite <- (firstn_skipn (length u) (g (u ++ v))), E. now rewrite slice_pre by lia. }
  pose proof (RV r1 C1) as V1. pose proof (RV r4 C4) as V4.
  assert (F : forall r, (window + 4 <= length r)%nat -> f r = map (fun i => match known (rolling_variance (r1 r) window ddof 1) i, known (rolling_variance (r4 r) window ddof 1) i with
                    | Some a, Some b => if Qltb 0 b then Some (a / (b / 4)) else None | _, _ => None end) (seq 0 (length r))).
  { intros r Hr. unfold f, variance_ratio. rewrite map_length. destruct (Nat.ltb_spec (length r) (window + 4)); [lia|]. reflexivity. }
  rewrite !F by (rewrite ?app_length; lia).
  refine (local_causal (fun r i => match known (rolling_variance (r1 r) window ddof 1) i, known (rolling_variance (r4 r) window ddof 1) i with
                    | Some a, Some b => if Qltb 0 b then Some (a / (b / 4)) else None | _, _ => None end) _ x y).
  intros u v i Hi. unfold known. now rewrite (causal_nth _ None u v i V1 Hi), (causal_nth _ None u v i V4 Hi).
Qed.
(** A concrete table: close and volume of five bars, then two more bars. *)
Definition ex_rows : list (Q * Q) := [(10, 3); (12, 1); (11, 4); (13, 2); (12, 5)].
Definition ex_more : list (Q * Q) := [(50, 9); (1, 7)].
Example C147_example :
  let all := ex_rows ++ ex_more in
  map (option_map Qred) (sma (map fst ex_rows) 2) = [None; Some 11; Some (23 # 2); Some 12; Some (25 # 2)] /\
  map (option_map Qred) (firstn 5 (sma (map fst all) 2)) = map (option_map Qred) (sma (map fst ex_rows) 2) /\
  map (option_map Qred) (sma (map fst all) 2) <> map (option_map Qred) (firstn 5 (sma (map fst all) 2)) /\
  map (option_map Qred) (firstn 5 (rsi_wilder (map fst all) 2)) = [None; None; Some (200 # 3); Some (600 # 7); Some (600 # 11)] /\
  map (option_map Qred) (pct_change (map fst ex_rows) 1) = [None; Some (1 # 5); Some (-1 # 12); Some (2 # 11); Some (-1 # 13)] /\
  (exists a b, roc (map fst ex_rows) 1 = Ok a /\ roc (map fst all) 1 = Ok b /\ firstn 5 b = a) /\
  (exists a b, ewma (map fst ex_rows) 3 = Ok a /\ ewma (map fst all) 3 = Ok b /\ firstn 5 b = a) /\
  (exists a b, vwap_distance (fun q => q) (map fst ex_rows) (map snd ex_rows) 2 false = Ok a /\
     vwap_distance (fun q => q) (map fst all) (map snd all) 2 false = Ok b /\ firstn 5 b = a).
Proof.
  cbv zeta. split; [vm_compute; reflexivity|]. split; [vm_compute; reflexivity|]. split; [vm_compute; discriminate|]. split; [vm_compute; reflexivity|]. split; [vm_compute; reflexivity|].
  split; [|split]; eexists; eexists; (split; [vm_compute; reflexivity|]); (split; vm_compute; reflexivity).
Qed.
Example C147_example_variance : (2 + 4 <= length (map Some [10; 12; 11; 13; 12; 15]))%nat /\
  map (option_map Qred) (variance_ratio (fun q => q) (map Some [10; 12; 11; 13; 12; 15]) 2 1 false) =
    firstn 6 (map (option_map Qred) (variance_ratio (fun q => q) (map Some [10; 12; 11; 13; 12; 15; 14; 2]) 2 1 false)) /\
  exists v, nth 5 (variance_ratio (fun q => q) (map Some [10; 12; 11; 13; 12; 15]) 2 1 false) None = Some v.
Proof. split; [cbn; lia|]. split; [vm_compute; reflexivity|]. eexists. vm_compute. reflexivity. Qed.
Example C147_example_cusum : let sq := fun q : Q => q in
  (2 + 2 <= length [1; 2; 4; 3; 5])%nat /\ exists a b, cusum_rolling sq sq [1; 2; 4; 3; 5] 3 2 = Ok a /\ cusum_rolling sq sq ([1; 2; 4; 3; 5] ++ [9; 2]) 3 2 = Ok b /\
  firstn 5 b = a /\ nth 4 a None <> None.
Proof. split; [cbn; lia|]. eexists. eexists. split; [vm_compute; reflexivity|]. split; [vm_compute; reflexivity|]. split; [vm_compute; reflexivity|]. vm_compute. discriminate. Qed.
(** With fewer rows than window plus four the variance ratio is missing everywhere; later
    rows turn a missing value of an earlier row into a number. *)
Theorem C147_variance_ratio_refuted : exists x y i v, (i < length x)%nat /\
  nth i (variance_ratio (fun q => q) (map Some x) 3 1 false) None = None /\
  nth i (variance_ratio (fun q => q) (map Some (x ++ y)) 3 1 false) None = Some v.
Proof. exists [10; 12; 11; 13; 12; 15], [14], 5%nat. eexists. split; [cbn; lia|]. split; vm_compute; reflexivity. Qed.
(** The same for the rolling CUSUM test with fewer prices than the warm-up plus two. *)
Theorem C147_cusum_refuted : exists x y i v a b, (i < length x)%nat /\
  cusum_rolling (fun q => q) (fun q => q) x 5 3 = Ok a /\ cusum_rolling (fun q => q) (fun q => q) (x ++ y) 5 3 = Ok b /\
  nth i a None = None /\ nth i b None = Some v.
Proof.
  exists [1; 2; 4; 3], [5], 3%nat. eexists. eexists. eexists. split; [cbn; lia|]. split; [vm_compute; reflexivity|]. split; [vm_compute; reflexivity|]. split; vm_compute; reflexivity.
Qed.
(** The price-volume correlation of the pandas implementation: whether a row is one
    depends on all later prices and volumes. *)
Theorem C147_pv_correlation_refuted : exists x y y' i, (i < length x)%nat /\ length y = length y' /\
  let f (r : list (Q * Q)) := pv_corr_pd (fun q => q) (map (fun v => Some (fst v)) r) (map (fun v => Some (snd v)) r) 4 in
  nth i (f (x ++ y)) NaN = Fin 1 /\ nth i (f (x ++ y')) NaN <> Fin 1 /\ nth i (f x) NaN <> Fin 1.
Proof.
  exists [(1, 1); (2, 2); (4, 3); (5, 5); (9, 6); (10, 9); (11, 10)], [(12, 11); (13, 12); (14, 13)], [(12, 11); (13, 12); (2, 13)], 5%nat.
  split; [cbn; lia|]. split; [reflexivity|]. cbv zeta. split; [vm_compute; reflexivity|]. split; vm_compute; discriminate.
Qed.
(** A negative lag takes the value of a later row. *)
Theorem C147_negative_lag_refuted : exists x y i, (i < length x)%nat /\
  nth i (shift (map Some (x ++ y)) (-1)) None = Some 7 /\ nth i (shift (map Some x) (-1)) None = None.
Proof. exists [1; 2], [7], 1%nat. split; [cbn; lia|]. split; reflexivity. Qed.

Print Assumptions C147_averages.
Print Assumptions C147_momentum.
Print Assumptions C147_trend.
Print Assumptions C147_returns.
Print Assumptions C147_volatility.
Print Assumptions C147_others.
Print Assumptions C147_cusum.
Print Assumptions C147_variance_ratio.
Print Assumptions C147_variance_ratio_refuted.
Print Assumptions C147_cusum_refuted.
Print Assumptions C147_pv_correlation_refuted.
Print Assumptions C147_negative_lag_refuted.
