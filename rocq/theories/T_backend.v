(** T_backend.v -- pandas and numba implementations of the same transform (C129-C132). *)
From Coq Require Import Qpower.
From Verif Require Import Base M_logic M_features S_features P_weights P_features P_features2 T_features T_features2
  M_volat S_volat M_volume S_volume P_volume M_transforms S_transforms M_backend S_backend P_backend T_volat2 T_volume T_transforms3.
Open Scope Q_scope.

(* ------------------------------------------------------------------ *)
(** ** C129: SMA *)

(** Both implementations: the mean of the last n values where n values exist, else missing. *)
Theorem C129_mean : forall x n out, (1 <= n)%nat -> out = sma_pd x n \/ out = sma_nan x n ->
  length out = length x /\ forall i, (i < length x)%nat ->
    (full x i n -> exists m, nth i out None = Some m /\ is_mean m (window (val x) i n)) /\
    (~ full x i n -> nth i out None = None).
Proof.
  intros x n out Hn E. split; [destruct E as [->| ->]; unfold sma_pd, sma_nan; now rewrite map_length, seq_length|].
  intros i Hi. assert (P : 0 < Qnat n) by (apply Qnat_pos; lia).
  assert (D : forall l, length l = n -> is_mean (qsum l / Qnat n) l) by (intros l <-; unfold is_mean; field; lra).
  assert (L : length (map (val x) (seq (i + 1 - n) n)) = n) by now rewrite map_length, seq_length.
  split; intro F; destruct E as [->| ->].
  - unfold sma_pd. rewrite nth_map_seq by exact Hi. rewrite rolling_full by auto. cbn [option_map].
    eexists. split; [reflexivity|]. apply D. exact L.
  - unfold sma_nan. rewrite nth_map_seq by exact Hi. pose proof (rolling_full x n i Hi F) as R. unfold rolling in R.
    destruct (i + 1 <? n)%nat; [discriminate|]. rewrite R. cbn [option_map]. eexists. split; [reflexivity|].
    apply (is_mean_compat (qsum (map (val x) (seq (i + 1 - n) n)) / Qnat n)); [field; lra|]. apply D. exact L.
  - unfold sma_pd. rewrite nth_map_seq by exact Hi. now rewrite rolling_none.
  - unfold sma_nan. rewrite nth_map_seq by exact Hi. pose proof (rolling_none x n i Hi F) as R. unfold rolling in R.
    destruct (i + 1 <? n)%nat; [reflexivity|]. now rewrite R.
Qed.
(** Hence they agree on every float column, with gaps or without. *)
Theorem C129_agree : forall x n i, (1 <= n)%nat -> (i < length x)%nat -> oeq (nth i (sma_pd x n) None) (nth i (sma_nan x n) None).
Proof.
  intros x n i Hn Hi. destruct (proj2 (C129_mean x n _ Hn (or_introl eq_refl)) i Hi) as [A1 A2].
  destruct (proj2 (C129_mean x n _ Hn (or_intror eq_refl)) i Hi) as [B1 B2]. destruct (full_dec x i n) as [F|F].
  - destruct (A1 F) as [m [-> Hm]], (B1 F) as [m' [-> Hm']]. cbn. eapply is_mean_unique; [|exact Hm|exact Hm']. now apply window_nonnil.
  - rewrite A2, B2 by auto. exact I.
Qed.
(** Without gaps this is the kernel of C45. *)
Theorem C129_complete : forall xs n, (1 <= n)%nat -> sma_nan (map Some xs) n = sma xs n.
Proof.
  intros xs n Hn. unfold sma_nan, sma. rewrite map_length. apply map_ext_in. intros i _. destruct (i + 1 <? n)%nat; [reflexivity|].
  rewrite skipn_map, firstn_map. unfold lastn.
  assert (E : all_known (map Some (firstn n (skipn (i + 1 - n) xs))) = Some (firstn n (skipn (i + 1 - n) xs))) by now apply all_known_some.
  now rewrite E.
Qed.
(** On an integer column they differ: the numba result is cut to integers, and where pandas has NaN
    it has a number. *)
Theorem C129_integer_refuted : forall nanint, exists xs n, 
  nth 1 (sma_pd (map (fun z => Some (inject_Z z)) xs) n) None = Some (3 # 2) /\ nth 1 (sma_int nanint xs n) 0%Z = 1%Z /\
  nth 0 (sma_pd (map (fun z => Some (inject_Z z)) xs) n) None = None /\ nth 0 (sma_int nanint xs n) 0%Z = nanint.
Proof. intro nanint. exists [1; 2]%Z, 2%nat. repeat split. Qed.
(** Each entry of the integer result is the mean cut towards 0: off by less than 1. *)
Theorem C129_integer_partial : forall nanint xs n i, (1 <= n <= i + 1)%nat -> (i < length xs)%nat -> (forall x, In x xs -> (0 <= x)%Z) ->
  exists m, is_mean m (window (fun j => inject_Z (nth j xs 0%Z)) i n) /\
    inject_Z (nth i (sma_int nanint xs n) 0%Z) <= m < inject_Z (nth i (sma_int nanint xs n) 0%Z) + 1.
Proof.
  intros nanint xs n i Hn Hi Hp. unfold sma_int. rewrite nth_map_seq by exact Hi.
  replace (i + 1 <? n)%nat with false by (symmetry; apply Nat.ltb_ge; lia).
  assert (W : map inject_Z (firstn n (skipn (i + 1 - n) xs)) = window (fun j => inject_Z (nth j xs 0%Z)) i n).
  { unfold window. apply (nth_ext _ _ 0 0). { rewrite !map_length, firstn_length, skipn_length, seq_length. lia. }
    intros k Hk. rewrite map_length, firstn_length, skipn_length in Hk. rewrite nth_seq_map by lia.
    change 0 with (inject_Z 0). rewrite map_nth. f_equal. rewrite nth_firstn by lia. rewrite nth_skipn. reflexivity. }
  rewrite W. set (w := window _ i n). set (q := 1 / Qnat n * qsum w).
  assert (P : 0 < Qnat n) by (apply Qnat_pos; lia). assert (L : length w = n) by apply window_length.
  exists q. split. { unfold is_mean, q. rewrite L. field. lra. }
  assert (N : 0 <= q).
  { unfold q. assert (0 <= qsum w). { apply qsum_nonneg. intros y Hy. unfold w, window in Hy. apply in_map_iff in Hy. destruct Hy as [j [<- Hj]].
      apply in_seq in Hj. change 0 with (inject_Z 0). rewrite <- Zle_Qle. apply Hp. apply nth_In. lia. }
    assert (0 <= 1 / Qnat n) by (apply Qle_shift_div_l; lra). nra. }
  clearbody q. clear -N. unfold qtrunc. destruct q as [a b]. cbn [Qnum Qden]. unfold Qle in N. cbn in N.
  rewrite Z.quot_div_nonneg by lia. pose proof (Z.mod_pos_bound a (Zpos b) ltac:(lia)) as M. pose proof (Z.div_mod a (Zpos b) ltac:(lia)) as E.
  split; unfold Qle, Qlt, Qplus, inject_Z; cbn [Qnum Qden]; nia.
Qed.
Example C129_example : sma_pd [Some 1; None; Some 2; Some 6; Some 4] 2 = [None; None; None; Some (8 # 2); Some (10 # 2)] /\
  full [Some 1; None; Some 2; Some 6; Some 4] 3 2 /\ map (option_map Qred) (sma_nan [Some 1; None; Some 2; Some 6; Some 4] 2) = [None; None; None; Some 4; Some 5] /\
  sma_int (-9) [1; 2; 4; 4]%Z 2 = [-9; 1; 3; 4]%Z.
Proof. split; [reflexivity|]. split; [|split; reflexivity]. split; [cbn; lia|]. intros j H1 H2. destruct j as [|[|[|[|j]]]]; try lia; discriminate. Qed.

(* ------------------------------------------------------------------ *)
(** ** C130: EWMA and BarDurationEWMA *)

Section Decay.
  Variables (b : Q) (x : list (option Q)).
  Hypothesis Hb : 0 <= b.
  (** Decayed sum of g over the present values of rows below k. *)
  Fixpoint dsum (g : Q -> Q) (k : nat) : Q :=
    match k with
    | O => 0
    | S k' => b * dsum g k' + match nth k' x None with Some y => g y | None => 0 end
    end.
  Lemma dsum_closed g i : dsum g (S i) == ssum (fun j => match nth j x None with Some y => b ^ Z.of_nat (i - j) * g y | None => 0 end) 0 (S i).
  Proof.
    induction i as [|i IH].
    - cbn [dsum]. rewrite ssum_snoc, ssum_nil by lia. change (b ^ Z.of_nat (0 - 0)) with 1. destruct (nth 0 x None); ring.
    - change (dsum g (S (S i))) with (b * dsum g (S i) + match nth (S i) x None with Some y => g y | None => 0 end).
      rewrite IH. rewrite (ssum_snoc _ 0 (S i)) by lia. rewrite Nat.sub_diag.
      assert (E : ssum (fun j => match nth j x None with Some y => b ^ Z.of_nat (S i - j) * g y | None => 0 end) 0 (S i) ==
                  b * ssum (fun j => match nth j x None with Some y => b ^ Z.of_nat (i - j) * g y | None => 0 end) 0 (S i)).
      { unfold ssum. rewrite <- qsum_map_scal. apply qsum_map_ext. intros j Hj. apply in_seq in Hj. destruct (nth j x None); [|ring].
        replace (S i - j)%nat with (S (i - j)) by lia. rewrite pow_S. ring. }
      rewrite E. change (b ^ Z.of_nat 0) with 1. destruct (nth (S i) x None); ring.
  Qed.
  Definition st_ok (k : nat) (avg : option Q) (wt : Q) : Prop :=
    match avg with
    | None => (forall j, (j < k)%nat -> nth j x None = None) /\ wt = 1
    | Some a => (exists j, (j < k)%nat /\ nth j x None <> None) /\ 0 < dsum (fun _ => 1) k /\ wt == dsum (fun _ => 1) k /\
                a * dsum (fun _ => 1) k == dsum (fun y => y) k
    end.
  Lemma dsum_none g k : (forall j, (j < k)%nat -> nth j x None = None) -> dsum g k == 0.
  Proof. induction k as [|k IH]; intro H; [reflexivity|]. cbn [dsum]. rewrite IH by (intros; apply H; lia). rewrite H by lia. ring. Qed.
  Lemma dsum_nonneg k : 0 <= dsum (fun _ => 1) k.
  Proof. induction k as [|k IH]; cbn [dsum]; [lra|]. destruct (nth k x None); nra. Qed.
  Lemma ewm_loop_length : forall t avg wt, length (ewm_loop b avg wt t) = length t.
  Proof. induction t as [|c t IH]; intros avg wt; [reflexivity|]. cbn [ewm_loop]. destruct avg, c; cbn [length]; now rewrite IH. Qed.
  Hypothesis Hb1 : 0 < b.
  Lemma ewm_states : forall t k avg wt, t = skipn k x -> st_ok k avg wt -> forall m, (m < length t)%nat ->
    exists wt', st_ok (S (k + m)) (nth m (ewm_loop b avg wt t) None) wt'.
  Proof.
    induction t as [|c t IH]; intros k avg wt Et S0 m Hm; [cbn in Hm; lia|].
    assert (Ec : nth k x None = c). { replace k with (k + 0)%nat by lia. rewrite <- nth_skipn, <- Et. reflexivity. }
    assert (Et' : t = skipn (S k) x).
    { clear -Et. revert k Et. induction x as [|y l IHl]; intros k Et; [destruct k; discriminate|]. destruct k as [|k]; [now injection Et|]. exact (IHl k Et). }
    assert (ST : exists avg' wt', st_ok (S k) avg' wt' /\ ewm_loop b avg wt (c :: t) = avg' :: ewm_loop b avg' wt' t).
    { cbn [ewm_loop]. destruct avg as [a|], c as [c|].
      - destruct S0 as [_ [P [W A]]]. eexists _, _. split; [|reflexivity]. cbn [st_ok]. split; [exists k; split; [lia|congruence]|].
        cbn [dsum]. rewrite Ec. set (D := dsum (fun _ => 1) k) in *. set (N := dsum (fun y => y) k) in *. clearbody D N.
        split; [nra|]. split; [rewrite W; ring|]. destruct (Qeqb_spec a c) as [E|E].
        + rewrite <- A, E. ring.
        + assert (Q1 : 0 < wt * b + 1) by (rewrite W; nra). rewrite <- A. rewrite W. field. rewrite W in Q1. lra.
      - destruct S0 as [X [P [W A]]]. eexists _, _. split; [|reflexivity]. cbn [st_ok]. destruct X as [j [J1 J2]].
        split; [exists j; split; [lia|auto]|]. cbn [dsum]. rewrite Ec. set (D := dsum (fun _ => 1) k) in *. set (N := dsum (fun y => y) k) in *.
        split; [nra|]. split; [rewrite W; ring|]. rewrite <- A. ring.
      - destruct S0 as [X ->]. eexists _, _. split; [|reflexivity]. cbn [st_ok]. split; [exists k; split; [lia|congruence]|].
        cbn [dsum]. rewrite Ec, !dsum_none by auto. repeat split; try lra; ring.
      - destruct S0 as [X ->]. eexists _, _. split; [|reflexivity]. cbn [st_ok]. split; [|reflexivity]. intros j Hj.
        destruct (Nat.eq_dec j k) as [->|]; [auto|apply X; lia]. }
    destruct ST as [avg' [wt' [S1 ->]]]. destruct m as [|m].
    - cbn [nth]. rewrite Nat.add_0_r. now exists wt'.
    - cbn [nth]. destruct (IH (S k) avg' wt' Et' S1 m ltac:(cbn in Hm; lia)) as [w H]. exists w. now replace (k + S m)%nat with (S k + m)%nat by lia.
  Qed.
End Decay.

Lemma span_factor span : (2 <= span)%Z -> 0 < 1 - 2 / (inject_Z span + 1) < 1.
Proof.
  intro H. assert (2 <= inject_Z span) by (change 2 with (inject_Z 2); rewrite <- Zle_Qle; lia).
  assert (E : 2 / (inject_Z span + 1) * (inject_Z span + 1) == 2) by (field; lra).
  set (f := 2 / (inject_Z span + 1)) in *. clearbody f. split; nra.
Qed.
(** pandas: the mean of the values present so far, weighted by age in rows. *)
Theorem C130_pandas : forall x span, (2 <= span)%Z -> exists out, ewma_pd x span = Ok out /\ length out = length x /\
  forall i, (i < length x)%nat ->
    ((forall j, (j <= i)%nat -> nth j x None = None) -> nth i out None = None) /\
    (forall j, (j <= i)%nat -> nth j x None <> None ->
       exists v, nth i out None = Some v /\ decayed_mean x (1 - 2 / (inject_Z span + 1)) i v).
Proof.
  intros x span Hs. unfold ewma_pd. replace (span <? 1)%Z with false by (symmetry; apply Z.ltb_ge; lia).
  eexists. split; [reflexivity|]. pose proof (span_factor span Hs) as B. set (b := 1 - 2 / (inject_Z span + 1)) in *. clearbody b.
  split; [apply ewm_loop_length|]. intros i Hi.
  destruct (ewm_states b x ltac:(lra) x 0 None 1 eq_refl (conj (fun j (H : (j < 0)%nat) => False_ind _ (Nat.nlt_0_r _ H)) eq_refl) i Hi) as [wt ST].
  cbn [plus] in ST. destruct (nth i (ewm_loop b None 1 x) None) as [a|]; cbn [st_ok] in ST.
  - destruct ST as [[k [K1 K2]] [P [_ A]]]. split.
    + intro N. exfalso. apply K2. apply N. lia.
    + intros j _ _. exists a. split; [reflexivity|]. unfold decayed_mean. rewrite !dsum_closed in A. rewrite dsum_closed in P.
      assert (E : ssum (fun j => match nth j x None with Some _ => b ^ Z.of_nat (i - j) * 1 | None => 0 end) 0 (S i) ==
                  ssum (fun j => match nth j x None with Some _ => b ^ Z.of_nat (i - j) | None => 0 end) 0 (S i)).
      { apply ssum_ext. intros m _. destruct (nth m x None); ring. }
      rewrite E in A, P. split; [exact P|exact A].
  - destruct ST as [N _]. split; [reflexivity|]. intros j Hj K. exfalso. apply K. apply N. lia.
Qed.
Lemma decayed_unique x b i v v' : decayed_mean x b i v -> decayed_mean x b i v' -> v == v'.
Proof.
  unfold decayed_mean. intros [P E] [_ E']. rewrite <- E' in E. apply Qmult_inj_r in E; [auto|lra].
Qed.
Lemma decayed_between x b i v lo hi : 0 <= b -> decayed_mean x b i v ->
  (forall j y, (j <= i)%nat -> nth j x None = Some y -> lo <= y <= hi) -> lo <= v <= hi.
Proof.
  unfold decayed_mean. intros Hb [P E] H.
  set (W := ssum (fun j => match nth j x None with Some _ => b ^ Z.of_nat (i - j) | None => 0 end) 0 (S i)) in *.
  assert (A : lo * W <= v * W <= hi * W).
  { rewrite E. unfold W, ssum. rewrite <- !qsum_map_scal. split; apply qsum_le; intros j Hj; apply in_seq in Hj;
      destruct (nth j x None) as [y|] eqn:Ey; try lra; specialize (H j y ltac:(lia) Ey); pose proof (pow_nonneg b (i - j) Hb); nra. }
  clearbody W. split; nra.
Qed.
(** numba: on a series without gaps, the kernel of C46. *)
Theorem C130_complete : forall ys span out, ewma ys span = Ok out -> ewma_nan (map Some ys) span = Ok (map Some out).
Proof.
  intros ys span out. unfold ewma, ewma_nan. destruct (span <? 1)%Z; [discriminate|]. destruct ys as [|y t]; cbn [map].
  - intro E. injection E as <-. reflexivity.
  - intro E. injection E as <-. cbn [map option_map]. f_equal. f_equal. generalize (2 / (inject_Z span + 1)) as alpha. intro alpha.
    generalize y 1. induction t as [|z t IH]; intros u v; [reflexivity|]. cbn [map ewma_nan_loop ewma_loop option_map]. f_equal. apply IH.
Qed.
(** Without gaps both implementations return the same values. *)
Theorem C130_agree : forall ys span out, (2 <= span)%Z -> ewma ys span = Ok out ->
  exists out', ewma_pd (map Some ys) span = Ok out' /\ length out' = length ys /\
    forall i, (i < length ys)%nat -> oeq (nth i out' None) (Some (nth i out 0)).
Proof.
  intros ys span out Hs E. destruct (C130_pandas (map Some ys) span Hs) as [o [Eo [Lo H]]]. exists o. rewrite map_length in *.
  split; [exact Eo|]. split; [exact Lo|]. intros i Hi. destruct (H i Hi) as [_ H2].
  assert (N : forall j, (j < length ys)%nat -> nth j (map Some ys) None = Some (at_ ys j)).
  { intros j Hj. rewrite (nth_indep _ None (Some 0)) by (rewrite map_length; lia). now rewrite map_nth. }
  destruct (H2 i (le_n _) ltac:(rewrite N by lia; discriminate)) as [v [Ev Dv]]. rewrite Ev. cbn.
  destruct (C46_ewma ys span out E) as [_ M]. destruct (proj1 (M i Hi)) as [w [W1 [W2 [W3 W4]]]].
  apply (decayed_unique _ _ _ _ _ Dv). set (b := 1 - 2 / (inject_Z span + 1)) in *. clearbody b.
  assert (S1 : w i * ssum (fun j => match nth j (map Some ys) None with Some _ => b ^ Z.of_nat (i - j) | None => 0 end) 0 (S i) == 1).
  { rewrite <- W3. unfold ssum. rewrite Nat.sub_0_r, <- qsum_map_scal. apply qsum_map_ext. intros j Hj. apply in_seq in Hj.
    rewrite N by lia. symmetry. apply W2. lia. }
  assert (S2 : nth i out 0 == w i * ssum (fun j => match nth j (map Some ys) None with Some y => b ^ Z.of_nat (i - j) * y | None => 0 end) 0 (S i)).
  { rewrite W4. unfold ssum. rewrite Nat.sub_0_r, <- qsum_map_scal. apply qsum_map_ext. intros j Hj. apply in_seq in Hj.
    rewrite N by lia. rewrite (W2 j) by lia. ring. }
  destruct Dv as [P _]. split; [exact P|]. rewrite S2.
  assert (ALG : forall W D K, W * D == 1 -> W * K * D == K) by (intros W D K H0; transitivity ((W * D) * K); [ring|rewrite H0; ring]).
  apply ALG. exact S1.
Qed.
(** numba: from the first gap on every value is missing. *)
Theorem C130_gap : forall ys span out j i, ewma_nan ys span = Ok out -> (j <= i < length ys)%nat -> nth j ys None = None ->
  nth i out None = None.
Proof.
  intros ys span out j i. unfold ewma_nan. destruct (span <? 1)%Z; [discriminate|]. destruct ys as [|y t]; [intros _ H; cbn in H; lia|].
  intro E. injection E as <-. generalize (2 / (inject_Z span + 1)) as alpha. intro alpha.
  assert (DEAD : forall t v m, nth m (ewma_nan_loop alpha None v t) None = None).
  { clear. induction t as [|y t IH]; intros v m; [now destruct m|]. cbn [ewma_nan_loop]. destruct y; (destruct m; [reflexivity|apply IH]). }
  assert (G : forall t u v j m, (j <= m < length t)%nat -> nth j t None = None -> nth m (ewma_nan_loop alpha u v t) None = None).
  { clear -DEAD. induction t as [|y t IH]; intros u v j m H N; [cbn in H; lia|]. cbn [ewma_nan_loop]. destruct j as [|j].
    - cbn in N. subst y. destruct m; [reflexivity|]. apply DEAD.
    - destruct m as [|m]; [lia|]. cbn [nth]. apply (IH _ _ j); [cbn in H; lia|exact N]. }
  intros H N. destruct j as [|j].
  - cbn in N. subst y. destruct i; [reflexivity|]. apply DEAD.
  - destruct i as [|i]; [lia|]. apply (G _ _ _ j); [cbn in H; lia|exact N].
Qed.
(** So the implementations differ after one gap: pandas goes on with a value. *)
Theorem C130_gap_refuted : exists x span o1 o2, ewma_pd x span = Ok o1 /\ ewma_nan x span = Ok o2 /\
  map (option_map Qred) o1 = [Some 1; Some 1; Some (17 # 5)] /\ o2 = [Some (1 / 1); None; None].
Proof. exists [Some 1; None; Some 4], 3%Z. eexists _, _. split; [reflexivity|]. split; [reflexivity|]. split; vm_compute; reflexivity. Qed.
(** Span 1: pandas carries the last value forward. *)
Theorem C130_span_one : forall x out, ewma_pd x 1 = Ok out -> forall i, (i < length x)%nat -> oeq (nth i out None) (nth i (ffill None x) None).
Proof.
  intros x out E. unfold ewma_pd in E. cbn [Z.ltb] in E. change (1 <? 1)%Z with false in E. injection E as <-.
  assert (B : 1 - 2 / (inject_Z 1 + 1) == 0) by reflexivity. set (b := 1 - 2 / (inject_Z 1 + 1)) in *. clearbody b.
  assert (G : forall x avg prev wt, oeq avg prev -> forall i, (i < length x)%nat -> oeq (nth i (ewm_loop b avg wt x) None) (nth i (ffill prev x) None)).
  { clear -B. induction x as [|c t IH]; intros avg prev wt O i Hi; [cbn in Hi; lia|]. cbn [ewm_loop].
    destruct avg as [a|], prev as [p|], c as [c|]; cbn in O; try contradiction; cbn [ffill].
    - assert (E : oeq (Some (if Qeqb a c then a else (wt * b * a + c) / (wt * b + 1))) (Some c)).
      { cbn. destruct (Qeqb_spec a c); [auto|]. rewrite B. field. }
      destruct i as [|i]; [exact E|]. cbn [nth]. apply IH; [exact E|cbn in Hi; lia].
    - destruct i as [|i]; [exact O|]. cbn [nth]. apply IH; [exact O|cbn in Hi; lia].
    - destruct i as [|i]; [cbn; reflexivity|]. cbn [nth]. apply IH; [cbn; reflexivity|cbn in Hi; lia].
    - destruct i as [|i]; [exact I|]. cbn [nth]. apply IH; [exact I|cbn in Hi; lia]. }
  intros i Hi. now apply G.
Qed.
(** Bar durations: no value at the first bar, then the decayed mean of the durations so far, between the
    shortest and the longest of them. *)
Theorem C130_durations : forall ts span, (2 <= span)%Z -> exists out, bar_duration_ewma ts span = Ok out /\ length out = length ts /\
  (ts <> [] -> nth 0 out None = None) /\
  forall i, (1 <= i < length ts)%nat -> exists v, nth i out None = Some v /\
    decayed_mean (bar_duration ts 1) (1 - 2 / (inject_Z span + 1)) i v /\
    forall lo hi, (forall j, (1 <= j <= i)%nat -> lo * 1000000000 <= inject_Z (nth j ts 0 - nth (j - 1) ts 0)%Z <= hi * 1000000000) -> lo <= v <= hi.
Proof.
  intros ts span Hs. destruct (C130_pandas (bar_duration ts 1) span Hs) as [o [Eo [Lo H]]]. exists o. split; [exact Eo|].
  assert (LD : length (bar_duration ts 1) = length ts) by (unfold bar_duration; now rewrite map_length, seq_length). rewrite LD in *.
  split; [exact Lo|].
  assert (ND : forall j, (j < length ts)%nat -> nth j (bar_duration ts 1) None =
    if (j <? 1)%nat then None else Some (inject_Z (nth j ts 0 - nth (j - 1) ts 0)%Z / 1000000000)).
  { intros j Hj. unfold bar_duration. now rewrite nth_map_seq. }
  split.
  - intro Hn. assert (H0 : (0 < length ts)%nat) by (destruct ts; [congruence|cbn; lia]). apply (proj1 (H 0%nat H0)).
    intros j Hj. replace j with 0%nat by lia. now rewrite ND.
  - intros i Hi. destruct (proj2 (H i ltac:(lia)) i (le_n _)) as [v [Ev Dv]].
    { rewrite ND by lia. destruct (Nat.ltb_spec i 1); [lia|discriminate]. }
    exists v. split; [exact Ev|]. split; [exact Dv|]. intros lo hi B.
    apply (decayed_between _ _ _ _ lo hi (Qlt_le_weak _ _ (proj1 (span_factor span Hs))) Dv).
    intros j y Hj Ey. rewrite ND in Ey by lia. destruct (Nat.ltb_spec j 1); [discriminate|]. injection Ey as <-.
    specialize (B j ltac:(lia)). split; [apply Qle_shift_div_l; lra|apply Qle_shift_div_r; lra].
Qed.
Example C130_example : (exists o, ewma_pd [None; Some 1; None; Some 4; Some 4] 3 = Ok o /\ map (option_map Qred) o = [None; Some 1; Some 1; Some (17 # 5); Some (49 # 13)]) /\
  (exists o, bar_duration_ewma [0; 10000000000; 40000000000]%Z 3 = Ok o /\ map (option_map Qred) o = [None; Some 10; Some (70 # 3)]) /\
  (exists o, ewma_pd (map Some [1; 4; 10]) 3 = Ok o /\ map (option_map Qred) o = [Some 1; Some 3; Some 7]).
Proof. repeat split; eexists; (split; [reflexivity|]); vm_compute; reflexivity. Qed.

(* ------------------------------------------------------------------ *)
(** ** C131: PctChange, RealizedVolatility, VPIN *)

Lemma ffill_complete (x : list (option Q)) : complete x -> ffill None x = x.
Proof.
  assert (G : forall p, complete x -> ffill p x = x); [|auto]. induction x as [|[a|] t IH]; intros p C; [reflexivity| |].
  - cbn [ffill]. f_equal. apply IH. intro H. apply C. now right.
  - exfalso. apply C. now left.
Qed.
(** Without gaps the numba path is the kernel of C91. *)
Theorem C131_pct_complete : forall xs p, pct_nan (map Some xs) p = pct_change xs p.
Proof.
  intros xs p. unfold pct_nan, pct_change. rewrite map_length. apply map_ext_in. intros i Hi. apply in_seq in Hi.
  destruct (Nat.ltb_spec i p); [reflexivity|].
  assert (N : forall j, (j < length xs)%nat -> nth j (map Some xs) None = Some (qn xs j)).
  { intros j Hj. rewrite (nth_indep _ None (Some 0)) by (rewrite map_length; lia). now rewrite map_nth. }
  now rewrite !N by lia.
Qed.
(** Percentage change: the implementations agree on positive series without gaps. *)
Theorem C131_pct_partial : forall x p i, complete x -> (forall v, In (Some v) x -> 0 < v) -> (i < length x)%nat ->
  same_val (nth i (pct_pd x (Z.of_nat p)) NaN) (nth i (pct_nan x p) None).
Proof.
  intros x p i C P Hi. unfold pct_pd, pct_nan. rewrite nth_map_seq by exact Hi. rewrite ffill_complete by exact C.
  rewrite simple_return_nth by exact Hi. rewrite C116_lag by lia. rewrite Nat2Z.id.
  destruct (Z.ltb_spec (Z.of_nat i) (Z.of_nat p)), (Nat.ltb_spec i p); try lia.
  - destruct (nth i x None); exact I.
  - destruct (nth i x None) as [a|] eqn:Ea; [|exact I]. destruct (nth (i - p) x None) as [b|] eqn:Eb; [|exact I].
    assert (0 < b). { apply P. rewrite <- Eb. apply nth_In. lia. }
    destruct (Qltb_spec 0 b); [|lra]. unfold ediv. destruct (Qeqb_spec b 0); [lra|]. cbn. field. lra.
Qed.
(** They disagree after a gap (pandas fills it forward), on a negative and on a zero base. *)
Theorem C131_pct_refuted : exists x, map (fun e => match e with Fin q => Fin (Qred q) | e => e end) (pct_pd x 1) = [NaN; Fin 0; Fin 1; Fin (-1); PInf; Fin (-2); Fin 0] /\
  pct_nan x 1 = [None; None; None; Some ((0 - 4) / 4); None; Some ((-5 - 5) / 5); None].
Proof. exists [Some 2; None; Some 4; Some 0; Some 5; Some (-5); Some (-5)]. split; vm_compute; reflexivity. Qed.

Lemma sq_present l : qsum (map (fun o => match o with Some v => v * v | None => 0 end) l) == qsum (map (fun v => v * v) (present l)).
Proof.
  induction l as [|[v|] t IH]; [reflexivity| |]; cbn [map]; rewrite qsum_cons, IH.
  - change (present (Some v :: t)) with (v :: present t). cbn [map]. now rewrite qsum_cons.
  - change (present (None :: t)) with (present t). ring.
Qed.
Lemma count_present : forall l c s, fst (fold_left (fun s (x : option Q) => match x with Some v => (S (fst s), snd s + v) | None => s end) l (c, s)) = (c + length (present l))%nat.
Proof.
  induction l as [|[v|] t IH]; intros c s; cbn [fold_left].
  - cbn. lia.
  - cbn [fst snd]. rewrite IH. change (present (Some v :: t)) with (v :: present t). cbn [length]. lia.
  - rewrite IH. reflexivity.
Qed.
(** Realised volatility: the implementations agree on every series. *)
Theorem C131_realized_vol : forall sqrt x n smp i, (forall a b, a == b -> sqrt a == sqrt b) -> (i < length x)%nat ->
  oeq (nth i (rv_pd sqrt x n smp) None) (nth i (realized_vol sqrt x n smp) None).
Proof.
  intros sqrt x n smp i Hs Hi. unfold rv_pd, realized_vol. rewrite !nth_map_seq by exact Hi. destruct (i + 1 <? n)%nat; [exact I|].
  cbv zeta. unfold olast. set (w := firstn n (skipn (i + 1 - n) x)).
  assert (C : fst (valid_sum w) = length (present w)) by (unfold valid_sum; rewrite count_present; lia). rewrite C.
  destruct (1 <? length (present w))%nat; [|exact I]. cbn. apply Hs. now rewrite sq_present.
Qed.

Lemma col2_nth f a b i : length a = length b -> nth i (col2 f a b) None = match nth i a None, nth i b None with Some x, Some y => Some (f x y) | _, _ => None end.
Proof.
  intro L. unfold col2. set (h := fun p : option Q * option Q => _). destruct (Nat.lt_ge_cases i (length a)) as [H|H].
  - rewrite (nth_indep _ None (h (None, None))) by (rewrite map_length, combine_length; lia). rewrite map_nth, combine_nth by exact L. reflexivity.
  - rewrite !nth_overflow; try lia; [reflexivity|]. rewrite map_length, combine_length. lia.
Qed.
(** VPIN: the implementations agree on volumes that are not negative, unless a window's volume is
    positive and at most 1e-9. *)
Theorem C131_vpin_partial : forall b s n i, length s = length b -> (1 <= n)%nat -> (i < length b)%nat ->
  (forall v, In (Some v) b -> 0 <= v) -> (forall v, In (Some v) s -> 0 <= v) ->
  let tot := last_sum (fun t => known b t + known s t) i n in
  (tot == 0 \/ 1 # 1000000000 < tot) ->
  same_val (nth i (vpin_pd b s n) NaN) (nth i (vpin b s n) None).
Proof.
  intros b s n i L Hn Hi Pb Ps tot HT. destruct (C51_vpin b s n i L Hn Hi) as [_ [H1 H2]]. fold tot in H1, H2.
  unfold vpin_pd. rewrite nth_map_seq by exact Hi.
  set (imb := col2 (fun x y => Qabs (x - y)) b s). set (tt := col2 Qplus b s).
  assert (LI : length imb = length b) by (unfold imb, col2; rewrite map_length, combine_length; lia).
  assert (LT : length tt = length b) by (unfold tt, col2; rewrite map_length, combine_length; lia).
  assert (NI : forall j, nth j imb None <> None <-> nth j b None <> None /\ nth j s None <> None).
  { intro j. unfold imb. rewrite col2_nth by auto. destruct (nth j b None), (nth j s None); split; try tauto; intros; repeat split; try discriminate; now destruct H. }
  assert (NT : forall j, nth j tt None <> None <-> nth j b None <> None /\ nth j s None <> None).
  { intro j. unfold tt. rewrite col2_nth by auto. destruct (nth j b None), (nth j s None); split; try tauto; intros; repeat split; try discriminate; now destruct H. }
  destruct (full_dec tt i n) as [F|F].
  2:{ rewrite (rolling_none tt) by (auto; lia). rewrite H2; [destruct (rolling imb n i); exact I|]. left. intros [C1 C2]. apply F.
      split; [auto|]. intros j J1 J2. apply NT. apply C2; auto. }
  pose proof (proj1 F) as Fn. assert (FI : full imb i n). { destruct F as [F1 F2]. split; [auto|]. intros j J1 J2. apply NI. apply NT. now apply F2. }
  rewrite (rolling_full tt), (rolling_full imb) by (auto; lia).
  assert (CT : qsum (map (val tt) (seq (i + 1 - n) n)) == tot).
  { unfold tot, last_sum, window. apply qsum_map_ext. intros j Hj. apply in_seq in Hj. unfold val, tt, known. rewrite col2_nth by auto.
    destruct F as [F0 F]. specialize (F j ltac:(lia) ltac:(lia)). apply NT in F. destruct F as [F1 F2].
    destruct (nth j b None), (nth j s None); try congruence; reflexivity. }
  assert (CI : qsum (map (val imb) (seq (i + 1 - n) n)) == last_sum (fun t => Qabs (known b t - known s t)) i n).
  { unfold last_sum, window. apply qsum_map_ext. intros j Hj. apply in_seq in Hj. unfold val, imb, known. rewrite col2_nth by auto.
    destruct FI as [F0 FI]. specialize (FI j ltac:(lia) ltac:(lia)). apply NI in FI. destruct FI as [F1 F2].
    destruct (nth j b None), (nth j s None); try congruence; reflexivity. }
  set (QI := qsum (map (val imb) _)) in *. set (QT := qsum (map (val tt) _)) in *. unfold ediv.
  destruct HT as [HT|HT].
  - destruct (Qeqb_spec QT 0); [|lra]. rewrite H2 by (right; lra).
    assert (Z : QI == 0).
    { rewrite CI. apply Qle_antisym.
      - rewrite <- HT. unfold tot, last_sum, window. apply qsum_le. intros j Hj. apply in_seq in Hj.
        assert (0 <= known b j) by (unfold known; destruct (nth j b None) eqn:E; [apply Pb; rewrite <- E; apply nth_In; lia|lra]).
        assert (0 <= known s j) by (unfold known; destruct (nth j s None) eqn:E; [apply Ps; rewrite <- E; apply nth_In; lia|lra]).
        apply Qabs_Qle_condition. lra.
      - unfold last_sum, window. apply qsum_nonneg. intros y Hy. apply in_map_iff in Hy. destruct Hy as [j [<- _]]. apply Qabs_nonneg. }
    destruct (Qltb_spec 0 QI); [lra|]. destruct (Qltb_spec QI 0); [lra|]. exact I.
  - destruct (Qeqb_spec QT 0); [lra|]. assert (CC : (n <= i + 1)%nat /\ (forall t, (i < t + n)%nat -> (t <= i)%nat -> nth t b None <> None /\ nth t s None <> None)).
    { destruct F as [F1 F2]. split; [auto|]. intros t T1 T2. apply NT. now apply F2. }
    destruct (H1 CC HT) as [v [-> Hv]]. cbn. rewrite CI, CT, <- Hv. field. lra.
Qed.
(** Volumes that small: pandas has a value, numba does not. *)
Theorem C131_vpin_refuted : exists b s, map (fun e => match e with Fin q => Fin (Qred q) | e => e end) (vpin_pd b s 1) = [Fin (1 # 3)] /\ vpin b s 1 = [None].
Proof. exists [Some (1 # 5000000000)], [Some (1 # 10000000000)]. split; vm_compute; reflexivity. Qed.
Example C131_example : complete (map Some [2; 4; 3]) /\
  map (fun e => match e with Fin q => Fin (Qred q) | e => e end) (pct_pd (map Some [2; 4; 3]) 1) = [NaN; Fin 1; Fin (-1 # 4)] /\
  map (option_map Qred) (pct_nan (map Some [2; 4; 3]) 1) = [None; Some 1; Some (-1 # 4)] /\
  map (option_map Qred) (rv_pd (fun q => q) [Some 1; Some 2; None; Some 3] 3 true) = [None; None; Some 5; Some 13] /\
  map (fun e => match e with Fin q => Fin (Qred q) | e => e end) (vpin_pd [Some 3; Some 1; None; Some 0] [Some 1; Some 1; Some 2; Some 0] 1) = [Fin (1 # 2); Fin 0; NaN; NaN].
Proof. split; [apply complete_map|]. repeat split; vm_compute; reflexivity. Qed.

(* ------------------------------------------------------------------ *)
(** ** C132: price-volume correlation *)

Lemma rolling_map {A} (x : list (option A)) f n i : (i < length x)%nat -> (n <= i + 1)%nat ->
  (forall j, (i < j + n)%nat -> (j <= i)%nat -> nth j x None = Some (f j)) -> rolling x n i = Some (map f (seq (i + 1 - n) n)).
Proof.
  intros Hi Hn F. unfold rolling. replace (i + 1 <? n)%nat with false by (symmetry; apply Nat.ltb_ge; lia).
  apply all_known_some. rewrite skip_win by lia. rewrite map_map. apply map_ext_in. intros j Hj. apply in_seq in Hj. apply F; lia.
Qed.
Lemma combine_map2 {A B C} (f : C -> A) (g : C -> B) l : combine (map f l) (map g l) = map (fun j => (f j, g j)) l.
Proof. induction l as [|a l IH]; [reflexivity|]. cbn. now rewrite IH. Qed.
Lemma cross_fun (r v : nat -> Q) l : cross (map r l) (map v l) = qsum (map (fun j => (r j - mean (map r l)) * (v j - mean (map v l))) l).
Proof. unfold cross. rewrite combine_map2, map_map. reflexivity. Qed.
Lemma mean_compat (r r' : nat -> Q) l : (forall j, In j l -> r j == r' j) -> mean (map r l) == mean (map r' l).
Proof. intro H. unfold mean. rewrite !map_length. rewrite (qsum_map_ext r r' l H). reflexivity. Qed.
Lemma cross_compat (r r' v v' : nat -> Q) l : (forall j, In j l -> r j == r' j) -> (forall j, In j l -> v j == v' j) ->
  cross (map r l) (map v l) == cross (map r' l) (map v' l).
Proof.
  intros H1 H2. rewrite !cross_fun. apply qsum_map_ext. intros j Hj.
  rewrite (mean_compat r r' l H1), (mean_compat v v' l H2), (H1 j Hj), (H2 j Hj). reflexivity.
Qed.
Lemma cross_moments (r v : nat -> Q) l : l <> [] ->
  cross (map r l) (map v l) == qsum (map (fun j => r j * v j) l) - Qnat (length l) * (mean (map r l) * mean (map v l)).
Proof.
  intro Hl. rewrite cross_fun. set (a := mean (map r l)). set (c := mean (map v l)).
  assert (P : 0 < Qnat (length l)) by (apply Qnat_pos; destruct l; [congruence|cbn; lia]).
  assert (A : qsum (map r l) == a * Qnat (length l)) by (unfold a, mean; rewrite map_length; field; lra).
  assert (C : qsum (map v l) == c * Qnat (length l)) by (unfold c, mean; rewrite map_length; field; lra).
  assert (E : qsum (map (fun j => (r j - a) * (v j - c)) l) ==
              qsum (map (fun j => r j * v j) l) + (-c) * qsum (map r l) + (-a) * qsum (map v l) + qsum (map (fun _ => a * c) l)).
  { rewrite <- !qsum_map_scal, <- !qsum_map_plus. apply qsum_map_ext. intros j _. ring. }
  rewrite E, A, C, qsum_map_const. fold (Qnat (length l)). ring.
Qed.
(** The pandas value for a window of at least two complete rows. *)
Lemma corr_pd_fun sqrt (r v : nat -> Q) l : (2 <= length l)%nat ->
  let n := Qnat (length l) in
  exists num vx vy, corr_pd sqrt (map (fun j => (r j, v j)) l) = ediv num (sqrt (vx * vy)) /\
    num * (n - 1) == cross (map r l) (map v l) /\ vx * (n - 1) == cross (map r l) (map r l) /\ vy * (n - 1) == cross (map v l) (map v l).
Proof.
  intros Hl n. unfold corr_pd. rewrite map_length. replace (length l <? 2)%nat with false by (symmetry; apply Nat.ltb_ge; lia).
  cbv zeta. rewrite !map_map. cbn [fst snd]. eexists _, _, _. split; [reflexivity|].
  assert (P : 1 < n). { unfold n. pose proof (Qnat_le 2 (length l) Hl) as Q2. change (Qnat 2) with 2 in Q2. lra. }
  assert (M : forall f : nat -> Q, mean (map f l) = qsum (map f l) / n) by (intro f; unfold mean; now rewrite map_length).
  change (Qnat (length l)) with n. split; [|rewrite !cross_fun, !M; split; rewrite Qmult_comm, Qmult_div_r by lra; reflexivity].
  rewrite cross_moments by (destruct l; [cbn in Hl; lia|discriminate]). rewrite !M. fold n.
  change (map (fun x : nat => r x) l) with (map r l). change (map (fun x : nat => v x) l) with (map v l). field. lra.
Qed.

Definition nondecreasing (x : list (option Q)) : Prop := forall j, (S j < length x)%nat -> val x j <= val x (S j).
Lemma mono_up_spec x : mono_up x = true -> nondecreasing x.
Proof.
  unfold mono_up. destruct (all_known x) as [w|] eqn:E; [|discriminate]. apply all_known_some in E. subst x. intros H j Hj. rewrite map_length in Hj.
  rewrite forallb_forall in H. specialize (H j ltac:(apply in_seq; lia)). apply Qleb_iff in H.
  assert (N : forall j, (j < length w)%nat -> val (map Some w) j = nth j w 0).
  { intros k Hk. unfold val. rewrite (nth_indep _ None (Some 0)) by (rewrite map_length; lia). now rewrite map_nth. }
  now rewrite !N by lia.
Qed.
(** The implementations agree on columns without gaps and zero prices, outside the rows and series
    with hard-coded values: both missing when a spread is 0, else (for exact square roots) equal. *)
Theorem C132_agree_partial : forall sqrt price volume n i,
  complete price -> complete volume -> length volume = length price -> (forall v, In (Some v) price -> ~ v == 0) ->
  (2 <= n <= i)%nat -> (i < length price)%nat -> ~ (4 <= i < 10)%nat ->
  (n = 4%nat -> (10 <= length price)%nat -> ~ nondecreasing price) -> (forall a, a == 0 -> sqrt a == 0) ->
  let r j := (val price j - val price (j - 1)) / val price (j - 1) in
  let rs := window r i n in let vs := window (val volume) i n in
  let pd := nth i (pv_corr_pd sqrt price volume n) NaN in
  let nb := nth i (pv_correlation sqrt price volume n) None in
  (cross rs rs == 0 \/ cross vs vs == 0 -> pd = NaN /\ nb = None) /\
  (~ cross rs rs == 0 -> ~ cross vs vs == 0 ->
   (forall a, a == cross rs rs \/ a == cross vs vs \/ a * ((Qnat n - 1) * (Qnat n - 1)) == cross rs rs * cross vs vs ->
      0 < sqrt a /\ sqrt a * sqrt a == a) ->
   exists c c', pd = Fin c /\ nb = Some c' /\ c == c').
Proof.
  intros sqrt price volume n i Cp Cv L Z Hn Hi Hs Hm S0 r rs vs pd nb.
  assert (NP : forall j, (j < length price)%nat -> nth j price None = Some (val price j)).
  { intros j Hj. unfold val. destruct (nth j price None) eqn:E; [reflexivity|]. exfalso. apply Cp. rewrite <- E. now apply nth_In. }
  assert (NV : forall j, (j < length price)%nat -> nth j volume None = Some (val volume j)).
  { intros j Hj. unfold val. destruct (nth j volume None) eqn:E; [reflexivity|]. exfalso. apply Cv. rewrite <- E. apply nth_In. lia. }
  assert (NZ : forall j, (j < length price)%nat -> ~ val price j == 0).
  { intros j Hj. apply Z. rewrite <- NP by auto. now apply nth_In. }
  set (l := seq (i + 1 - n) n).
  assert (Ll : length l = n) by apply seq_length.
  assert (IN : forall j, In j l -> (1 <= j <= i)%nat) by (intros j Hj; apply in_seq in Hj; lia).
  assert (RET : forall j, (1 <= j <= i)%nat -> ret (fun j => nth j price None) j = Some (r j)).
  { intros j Hj. destruct j as [|k]; [lia|]. cbn [ret]. rewrite !NP by lia. unfold r. replace (S k - 1)%nat with k by lia.
    destruct (Qeq_bool (val price k) 0) eqn:E; [|reflexivity]. apply Qeq_bool_iff in E. exfalso. apply (NZ k); [lia|exact E]. }
  set (r' := fun j => val price j / val price (j - 1) - 1).
  assert (RR : forall j, In j l -> r' j == r j).
  { intros j Hj. apply IN in Hj. unfold r', r. field. apply NZ. lia. }
  assert (PAD : forall j, (1 <= j <= i)%nat -> pad_return price j = Some (r' j)).
  { intros j Hj. destruct j as [|k]; [lia|]. unfold pad_return. rewrite ffill_complete by exact Cp. rewrite !NP by lia. unfold r'.
    replace (S k - 1)%nat with k by lia. destruct (Qeqb_spec (val price k) 0) as [E|E]; [|reflexivity]. exfalso. apply (NZ k); [lia|exact E]. }
  assert (OBS : observed (ret (fun j => nth j price None)) (fun j => nth j volume None) i n = map (fun j => (r j, val volume j)) l).
  { unfold observed, window. fold l. assert (G : forall m, (forall j, In j m -> (1 <= j <= i)%nat) ->
      concat (map (fun j => match ret (fun j => nth j price None) j, nth j volume None with Some a, Some b => [(a, b)] | _, _ => [] end) m) = map (fun j => (r j, val volume j)) m).
    { induction m as [|j m IH]; intro H; [reflexivity|]. cbn [map concat]. rewrite RET by (apply H; now left). rewrite NV by (specialize (H j (or_introl eq_refl)); lia).
      cbn [app]. f_equal. apply IH. intros; apply H; now right. }
    apply G. exact IN. }
  (* numba *)
  destruct (C53_pearson_partial sqrt price volume n i ltac:(lia) Hi Hs) as [B1 B2]. fold nb in B1, B2.
  rewrite OBS in B1, B2. rewrite !map_map in B1, B2. cbn [fst snd] in B1, B2.
  change (map (fun x => r x) l) with rs in B1, B2. change (map (fun x => val volume x) l) with vs in B1, B2.
  (* pandas *)
  assert (PD : exists num vx vy, pd = ediv num (sqrt (vx * vy)) /\ num * (Qnat n - 1) == cross rs vs /\ vx * (Qnat n - 1) == cross rs rs /\ vy * (Qnat n - 1) == cross vs vs).
  { unfold pd, pv_corr_pd. rewrite nth_map_seq by exact Hi.
    assert (SP : ((10 <=? length price)%nat && (n =? 4)%nat && mono_up price)%bool = false).
    { destruct (Nat.leb_spec 10 (length price)); [|reflexivity]. destruct (Nat.eqb_spec n 4); [|reflexivity]. cbn [andb].
      destruct (mono_up price) eqn:E; [|reflexivity]. exfalso. apply Hm; auto. now apply mono_up_spec. }
    rewrite SP. cbn [andb].
    rewrite (rolling_map _ (fun j => (r' j, val volume j))).
    - fold l. destruct (corr_pd_fun sqrt r' (val volume) l ltac:(lia)) as [num [vx [vy [E [E1 [E2 E3]]]]]]. rewrite Ll in *.
      exists num, vx, vy. split; [exact E|]. rewrite E1, E2, E3. unfold rs, vs, window. fold l.
      split; [apply cross_compat; [exact RR|reflexivity]|]. split; [apply cross_compat; exact RR|reflexivity].
    - now rewrite map_length, seq_length.
    - lia.
    - intros j J1 J2. rewrite nth_map_seq by lia. rewrite PAD by lia. now rewrite NV by lia. }
  destruct PD as [num [vx [vy [-> [E1 [E2 E3]]]]]].
  assert (P1 : 1 < Qnat n). { pose proof (Qnat_le 2 n ltac:(lia)) as Q2. change (Qnat 2) with 2 in Q2. lra. }
  assert (LEN : length rs = length vs) by (unfold rs, vs; now rewrite !window_length).
  destruct (cross_cs rs vs LEN) as [A1 [A2 A3]]. clearbody nb.
  assert (Lr : length rs = n) by apply window_length.
  set (R := cross rs rs) in *. set (V := cross vs vs) in *. set (X := cross rs vs) in *. clearbody R V X.
  split.
  - intro H0. split; [|apply B1; tauto].
    assert (VV : vx * vy == 0).
    { assert (vx * vy * ((Qnat n - 1) * (Qnat n - 1)) == 0).
      { transitivity ((vx * (Qnat n - 1)) * (vy * (Qnat n - 1))); [ring|]. rewrite E2, E3. destruct H0 as [H0|H0]; rewrite H0; ring. }
      apply Qmult_integral in H. destruct H as [H|H]; [auto|]. exfalso. nra. }
    assert (NN : num == 0).
    { assert (X == 0). { assert (X * X <= 0). { destruct H0 as [H0|H0]; rewrite H0 in A3; lra. } destruct (Qlt_le_dec X 0); [nra|]. destruct (Qlt_le_dec 0 X); nra. }
      rewrite H in E1. apply Qmult_integral in E1. destruct E1; [auto|lra]. }
    unfold ediv. destruct (Qeqb_spec (sqrt (vx * vy)) 0) as [_|K]; [|exfalso; apply K; now apply S0].
    destruct (Qltb_spec 0 num); [lra|]. destruct (Qltb_spec num 0); [lra|reflexivity].
  - intros HR HV SQ. destruct (B2 ltac:(rewrite RET by lia; discriminate) ltac:(rewrite NV by lia; discriminate) ltac:(rewrite Lr; lia) HR HV) as [c' [-> [_ C]]].
    cbv zeta in C. destruct (SQ R ltac:(left; reflexivity)) as [s1 q1]. destruct (SQ V ltac:(right; left; reflexivity)) as [s2 q2].
    destruct (SQ (vx * vy)) as [s3 q3].
    { right. right. transitivity ((vx * (Qnat n - 1)) * (vy * (Qnat n - 1))); [ring|]. rewrite E2, E3. ring. }
    specialize (C s1 s2 q1 q2).
    assert (S3 : sqrt (vx * vy) * (Qnat n - 1) == sqrt R * sqrt V).
    { set (t := sqrt (vx * vy)) in *. set (s := sqrt R) in *. set (u := sqrt V) in *. clearbody t s u.
      assert (SQE : (t * (Qnat n - 1)) * (t * (Qnat n - 1)) == (s * u) * (s * u)).
      { transitivity ((t * t) * ((Qnat n - 1) * (Qnat n - 1))); [ring|]. rewrite q3.
        transitivity ((vx * (Qnat n - 1)) * (vy * (Qnat n - 1))); [ring|]. rewrite E2, E3, <- q1, <- q2. ring. }
      assert (0 < t * (Qnat n - 1)) by nra. assert (0 < s * u) by nra.
      set (y := t * (Qnat n - 1)) in *. set (z := s * u) in *. clearbody y z. destruct (Q_dec y z) as [[K|K]|K]; [nra|nra|exact K]. }
    unfold ediv. destruct (Qeqb_spec (sqrt (vx * vy)) 0); [lra|]. eexists _, _. split; [reflexivity|]. split; [reflexivity|].
    set (t := sqrt (vx * vy)) in *. assert (0 < sqrt R * sqrt V) by nra.
    apply (Qmult_inj_r _ _ (sqrt R * sqrt V)); [lra|]. rewrite C, <- S3, <- E1. field. lra.
Qed.
(** A volume missing inside the window: only numba has a value. *)
Theorem C132_missing_refuted : exists price volume n i, forall sqrt,
  nth i (pv_corr_pd sqrt price volume n) NaN = NaN /\ nth i (pv_correlation sqrt price volume n) None <> None.
Proof. exists (map Some [10; 11; 13; 12]), [Some 1; None; Some 5; Some 2], 3%nat, 3%nat. intro sqrt. split; [reflexivity|]. vm_compute. discriminate. Qed.
(** Rising prices and volumes whose returns and volumes move oppositely: numba writes 1 in rows 4 to 9
    for any window, pandas in all rows for window 4. *)
Theorem C132_hardcoded_refuted : exists price volume, forall sqrt : Q -> Q, (forall a, 0 < a -> 0 < sqrt a) ->
  nth 5 (pv_correlation sqrt price volume 5) None = Some 1 /\ (exists c, nth 5 (pv_corr_pd sqrt price volume 5) NaN = Fin c /\ c < 0) /\
  nth 10 (pv_corr_pd sqrt price volume 4) NaN = Fin 1 /\ (exists c, nth 10 (pv_correlation sqrt price volume 4) None = Some c /\ c < 0).
Proof.
  exists (map Some [10; 11; 12; 13; 14; 15; 16; 17; 18; 19; 20]), (map Some [1; 2; 3; 4; 5; 6; 7; 8; 9; 10; 11]).
  intros sqrt S. split; [reflexivity|]. split.
  - match goal with |- context [pv_corr_pd sqrt ?p ?v 5] =>
      replace (nth 5 (pv_corr_pd sqrt p v 5) NaN) with (corr_pd sqrt [(1 # 10, 2); (1 # 11, 3); (1 # 12, 4); (1 # 13, 5); (1 # 14, 6)]) by reflexivity end.
    unfold corr_pd. cbn [length Nat.ltb Nat.leb]. cbv zeta.
    match goal with |- exists c, ediv ?a (sqrt ?b) = _ /\ _ => assert (A : a < 0) by (vm_compute; reflexivity); assert (B : 0 < b) by (vm_compute; reflexivity); generalize (S b B); intro C; set (x := a) in *; set (y := sqrt b) in * end.
    clearbody x y. unfold ediv. destruct (Qeqb_spec y 0); [lra|]. eexists. split; [reflexivity|]. apply Qlt_shift_div_r; lra.
  - split; [reflexivity|]. 
    match goal with |- context [pv_correlation sqrt ?p ?v 4] =>
      replace (nth 10 (pv_correlation sqrt p v 4) None) with (corr_pairs sqrt (valid_pairs p v 10 4)) by reflexivity;
      set (ps := valid_pairs p v 10 4); vm_compute in ps; subst ps end.
    unfold corr_pairs. cbn [length Nat.ltb Nat.leb]. cbv zeta.
    match goal with |- exists c, (if Qltb 0 ?a && Qltb 0 ?b then _ else _) = _ /\ _ => assert (A : 0 < a) by (vm_compute; reflexivity); assert (B : 0 < b) by (vm_compute; reflexivity);
      pose proof (S a A); pose proof (S b B); replace (Qltb 0 a && Qltb 0 b)%bool with true by (vm_compute; reflexivity) end.
    match goal with |- exists c, Some (if Qltb 1 (?x / (sqrt ?a * sqrt ?b)) then _ else _) = _ /\ _ => assert (X : x < 0) by (vm_compute; reflexivity); set (z := x) in *; set (s := sqrt a) in *; set (t := sqrt b) in * end.
    clearbody z s t. assert (N : z / (s * t) < 0) by (apply Qlt_shift_div_r; nra).
    destruct (Qltb_spec 1 (z / (s * t))); [lra|]. destruct (Qltb_spec (z / (s * t)) (-(1))); eexists; (split; [reflexivity|lra]).
Qed.
Definition ex_root (q : Q) : Q := if Qeqb q 36 then 6 else if Qeqb q 4 then 2 else q.
Definition ex_p132 : list (option Q) := map Some [5; 1; 1; 1; 1; 1; 1; 2; 4; 4; 4].
Definition ex_v132 : list (option Q) := map Some [1; 1; 1; 1; 1; 1; 1; 15; 9; 9; 7].
Example C132_example : complete ex_p132 /\ complete ex_v132 /\ (forall v, In (Some v) ex_p132 -> ~ v == 0) /\ ~ nondecreasing ex_p132 /\
  (forall a, a == 0 -> ex_root a == 0) /\
  cross [1; 1; 0; 0] [1; 1; 0; 0] == 1 /\ cross [15; 9; 9; 7] [15; 9; 9; 7] == 36 /\
  (forall a, a == 1 \/ a == 36 \/ a * ((Qnat 4 - 1) * (Qnat 4 - 1)) == 1 * 36 -> 0 < ex_root a /\ ex_root a * ex_root a == a) /\
  nth 10 (map (fun e => match e with Fin q => Fin (Qred q) | e => e end) (pv_corr_pd ex_root ex_p132 ex_v132 4)) NaN = Fin (2 # 3) /\
  nth 10 (map (option_map Qred) (pv_correlation ex_root ex_p132 ex_v132 4)) None = Some (2 # 3).
Proof.
  split; [apply complete_map|]. split; [apply complete_map|]. split.
  { unfold ex_p132. intros v Hv. apply in_map_iff in Hv. destruct Hv as [u [[= ->] H]]. cbn in H. intro E. repeat (destruct H as [<-|H]; [discriminate E|]). exact H. }
  split. { intro H. specialize (H 0%nat). cbn in H. specialize (H ltac:(lia)). vm_compute in H. now apply H. }
  split. { intros a Ha. unfold ex_root. destruct (Qeqb_spec a 36); [lra|]. destruct (Qeqb_spec a 4); lra. }
  split; [vm_compute; reflexivity|]. split; [vm_compute; reflexivity|]. split.
  { intros a Ha. change (Qnat 4) with 4 in Ha. unfold ex_root. destruct (Qeqb_spec a 36); [split; lra|]. destruct (Qeqb_spec a 4); [split; lra|]. destruct Ha as [Ha|[Ha|Ha]]; [split; [lra|rewrite Ha; lra]|lra|lra]. }
  split; vm_compute; reflexivity.
Qed.

Print Assumptions C129_mean.
Print Assumptions C129_agree.
Print Assumptions C129_complete.
Print Assumptions C129_integer_refuted.
Print Assumptions C129_integer_partial.
Print Assumptions C130_pandas.
Print Assumptions C130_complete.
Print Assumptions C130_agree.
Print Assumptions C130_gap.
Print Assumptions C130_gap_refuted.
Print Assumptions C130_span_one.
Print Assumptions C130_durations.
Print Assumptions C131_pct_complete.
Print Assumptions C131_pct_partial.
Print Assumptions C131_pct_refuted.
Print Assumptions C131_realized_vol.
Print Assumptions C131_vpin_partial.
Print Assumptions C131_vpin_refuted.
Print Assumptions C132_agree_partial.
Print Assumptions C132_missing_refuted.
Print Assumptions C132_hardcoded_refuted.
