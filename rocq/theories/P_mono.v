(** P_mono.v -- larger thresholds: the closes come later. *)
From Verif Require Import Base M_logic M_sampling S_logic S_mirror S_mono P_cusumbar.
Open Scope Q_scope.

Lemma ne_refl a : not_earlier a a.
Proof. split; [lia|]. intros. lia. Qed.
Lemma ne_a a b i : not_earlier a b -> not_earlier (a ++ [i]) b.
Proof.
  intros [H1 H2]. split; [rewrite app_length; lia|]. intros k Hk. rewrite app_nth1 by lia. auto.
Qed.
Lemma ne_both a b i : not_earlier a b -> (forall k, (k < length a)%nat -> (nth k a 0 <= i)%nat) -> not_earlier (a ++ [i]) (b ++ [i]).
Proof.
  intros [H1 H2] Hb. split; [rewrite !app_length; cbn; lia|]. intros k Hk. rewrite app_length in Hk. cbn in Hk.
  destruct (Nat.eq_dec k (length b)) as [->|Hn].
  - rewrite (app_nth2 b) by lia. rewrite Nat.sub_diag. cbn [nth].
    destruct (Nat.eq_dec (length b) (length a)) as [E|E].
    + rewrite app_nth2, E, Nat.sub_diag by lia. cbn. lia.
    + rewrite app_nth1 by lia. apply Hb. lia.
  - rewrite !app_nth1 by lia. apply H2. lia.
Qed.
Lemma ne_b a b i : not_earlier a b -> (length b < length a)%nat -> (forall k, (k < length a)%nat -> (nth k a 0 <= i)%nat) ->
  not_earlier a (b ++ [i]).
Proof.
  intros [H1 H2] Hl Hb. split; [rewrite app_length; cbn; lia|]. intros k Hk. rewrite app_length in Hk. cbn in Hk.
  destruct (Nat.eq_dec k (length b)) as [->|Hn].
  - rewrite (app_nth2 b) by lia. rewrite Nat.sub_diag. cbn [nth]. apply Hb. lia.
  - rewrite app_nth1 by lia. apply H2. lia.
Qed.
Definition upto (a : list nat) (i : nat) : Prop := forall k, (k < length a)%nat -> (nth k a 0 <= i)%nat.
Lemma upto_S a i : upto a i -> upto a (S i).
Proof. intros H k Hk. specialize (H k Hk). lia. Qed.
Lemma upto_le a i j : upto a i -> (i <= j)%nat -> upto a j.
Proof. intros H L k Hk. specialize (H k Hk). lia. Qed.
Lemma upto_app a i : upto a i -> upto (a ++ [i]) i.
Proof.
  intros H k Hk. rewrite app_length in Hk. cbn in Hk. destruct (Nat.eq_dec k (length a)) as [->|Hn].
  - rewrite app_nth2, Nat.sub_diag by lia. cbn. lia.
  - rewrite app_nth1 by lia. apply H. lia.
Qed.

(** Two runs over the same positions. *)
Lemma couple {A B} (R : nat -> A -> B -> Prop) (f : A -> nat -> A) (g : B -> nat -> B) (lo hi : nat) :
  (forall k a b, (lo <= k < hi)%nat -> R k a b -> R (S k) (f a k) (g b k)) ->
  forall m k a b, (lo <= k)%nat -> (k + m <= hi)%nat -> R k a b ->
    R (k + m)%nat (fold_left f (seq k m) a) (fold_left g (seq k m) b).
Proof.
  intros H m. induction m as [|m IH]; intros k a b H1 H2 HR; cbn [seq fold_left].
  - now rewrite Nat.add_0_r.
  - replace (k + S m)%nat with (S k + m)%nat by lia. apply IH; [lia|lia|]. apply H; [lia|exact HR].
Qed.

(** ** Tick, volume and dollar bars *)
Definition t_rel (k : nat) (a b : list nat * Z) : Prop :=
  not_earlier (fst a) (fst b) /\ upto (fst a) (k - 1) /\ (0 <= snd a)%Z /\ (0 <= snd b)%Z /\
  ((length (fst b) < length (fst a))%nat \/ (length (fst b) = length (fst a) /\ (snd b <= snd a)%Z)).
Lemma tick_mono n t t' : (t <= t')%Z -> not_earlier (tick_bar_indexer n t) (tick_bar_indexer n t').
Proof.
  intro Ht. unfold tick_bar_indexer.
  apply (couple t_rel _ _ 1 (1 + (n - 1))); [|lia|lia|].
  - intros k [ia ca] [ib cb] Hk (N & U & Ca & Cb & D). cbn [fst snd] in *. unfold tick_step.
    apply (upto_le _ _ k) in U; [|lia].
    destruct (Z.leb_spec t (ca + 1)) as [F|F], (Z.leb_spec t' (cb + 1)) as [F'|F']; unfold t_rel; cbn [fst snd];
      rewrite ?app_length; cbn [length]; replace (S k - 1)%nat with k by lia.
    + split; [now apply ne_both|]. split; [now apply upto_app|]. lia.
    + split; [now apply ne_a|]. split; [now apply upto_app|]. lia.
    + assert (length ib < length ia)%nat by lia. split; [now apply ne_b|]. split; [exact U|]. lia.
    + split; [exact N|]. split; [exact U|]. lia.
  - unfold t_rel. cbn [fst snd]. split; [apply ne_refl|]. split; [|lia]. intros [|k] Hk; cbn in *; lia.
Qed.

Definition v_rel (k : nat) (a b : list nat * Q) : Prop :=
  not_earlier (fst a) (fst b) /\ upto (fst a) (k - 1) /\ 0 <= snd a /\ 0 <= snd b /\
  ((length (fst b) < length (fst a))%nat \/ (length (fst b) = length (fst a) /\ snd b <= snd a)).
Lemma volume_mono v t t' : (forall i, 0 <= nth i v 0) -> t <= t' ->
  not_earlier (volume_bar_indexer v t) (volume_bar_indexer v t').
Proof.
  intros Hv Ht. unfold volume_bar_indexer.
  apply (couple v_rel _ _ 1 (1 + (length v - 1))); [|lia|lia|].
  - intros k [ia ca] [ib cb] Hk (N & U & Ca & Cb & D). cbn [fst snd] in *. unfold volume_step.
    specialize (Hv k). apply (upto_le _ _ k) in U; [|lia].
    destruct (Qleb_spec t (ca + nth k v 0)) as [F|F], (Qleb_spec t' (cb + nth k v 0)) as [F'|F']; unfold v_rel; cbn [fst snd];
      rewrite ?app_length; cbn [length]; replace (S k - 1)%nat with k by lia.
    + split; [now apply ne_both|]. split; [now apply upto_app|]. split; [lra|]. split; [lra|].
      destruct D as [D|[D _]]; [left; lia|right; split; [lia|lra]].
    + split; [now apply ne_a|]. split; [now apply upto_app|]. split; [lra|]. split; [lra|].
      left. destruct D as [D|[D _]]; lia.
    + assert (L : (length ib < length ia)%nat) by (destruct D as [D|[_ D]]; [lia|exfalso; lra]).
      split; [now apply ne_b|]. split; [exact U|]. split; [lra|]. split; [lra|].
      destruct (Nat.eq_dec (length ib + 1) (length ia)) as [E|E]; [right; split; [lia|lra]|left; lia].
    + split; [exact N|]. split; [exact U|]. split; [lra|]. split; [lra|].
      destruct D as [D|[D D2]]; [left; lia|right; split; [lia|lra]].
  - specialize (Hv 0%nat). unfold v_rel. cbn [fst snd]. split; [apply ne_refl|]. split; [intros [|k] Hk; cbn in *; lia|].
    split; [exact Hv|]. split; [exact Hv|]. right. split; [reflexivity|lra].
Qed.

Definition d_rel (t t' : Q) (s : Q) (k : nat) (a b : list nat * Q) : Prop :=
  not_earlier (fst a) (fst b) /\ upto (fst a) (k - 1) /\
  snd a == s - t * inject_Z (Z.of_nat (length (fst a)) - 1) /\ snd b == s - t' * inject_Z (Z.of_nat (length (fst b)) - 1) /\
  (1 <= length (fst b))%nat.
Lemma dollar_mono p v t t' : t <= t' -> not_earlier (dollar_bar_indexer p v t) (dollar_bar_indexer p v t').
Proof.
  intro Ht. unfold dollar_bar_indexer, dollar_bar_run.
  assert (G : exists s, d_rel t t' s (1 + (length p - 1))
     (fold_left (dollar_step p v t) (seq 1 (length p - 1)) ([0%nat], nth 0 p 0 * nth 0 v 0))
     (fold_left (dollar_step p v t') (seq 1 (length p - 1)) ([0%nat], nth 0 p 0 * nth 0 v 0))).
  { apply (couple (fun k a b => exists s, d_rel t t' s k a b) _ _ 1 (1 + (length p - 1))); [|lia|lia|].
    - intros k [ia ca] [ib cb] Hk [s (N & U & Ca & Cb & L)]. cbn [fst snd] in *. unfold dollar_step.
      apply (upto_le _ _ k) in U; [|lia]. set (d := nth k p 0 * nth k v 0). clearbody d. exists (s + d).
      assert (X : forall (l : list nat) (i : nat), inject_Z (Z.of_nat (length (l ++ [i])) - 1) == inject_Z (Z.of_nat (length l) - 1) + 1).
      { intros l i. rewrite app_length. cbn [length]. replace (Z.of_nat (length l + 1) - 1)%Z with (Z.of_nat (length l) - 1 + 1)%Z by lia.
        rewrite inject_Z_plus. reflexivity. }
      destruct (Qleb_spec t (ca + d)) as [F|F], (Qleb_spec t' (cb + d)) as [F'|F']; unfold d_rel; cbn [fst snd];
        rewrite ?X; replace (S k - 1)%nat with k by lia.
      + split; [now apply ne_both|]. split; [now apply upto_app|]. split; [lra|]. split; [lra|]. rewrite app_length. lia.
      + split; [now apply ne_a|]. split; [now apply upto_app|]. split; [lra|]. split; [lra|]. exact L.
      + assert (LT : (length ib < length ia)%nat).
        { destruct (Nat.eq_dec (length ib) (length ia)) as [E|E]; [|destruct N; lia]. exfalso.
          rewrite E in *. set (m := (Z.of_nat (length ia) - 1)%Z) in *. assert (M : (0 <= m)%Z) by lia.
          rewrite Zle_Qle in M. clearbody m. change (inject_Z 0) with 0 in M.
          assert (t * inject_Z m <= t' * inject_Z m) by (apply Qmult_le_compat_r; assumption). lra. }
        split; [now apply ne_b|]. split; [exact U|]. split; [lra|]. split; [lra|]. rewrite app_length. lia.
      + split; [exact N|]. split; [exact U|]. split; [lra|]. split; [lra|exact L].
    - exists (nth 0 p 0 * nth 0 v 0). unfold d_rel. cbn [fst snd length]. change (inject_Z (Z.of_nat 1 - 1)) with 0.
      split; [apply ne_refl|]. split; [intros [|k] Hk; cbn in *; lia|]. split; [lra|]. split; [lra|lia]. }
  destruct G as [s G]. apply G.
Qed.

(** ** CUSUM *)
Lemma pmax0 x : 0 <= pmax 0 x /\ x <= pmax 0 x /\ (pmax 0 x == 0 \/ pmax 0 x == x).
Proof. unfold pmax. destruct (Qltb_spec 0 x); split; try split; lra. Qed.
Lemma pmin0 x : pmin 0 x <= 0 /\ pmin 0 x <= x /\ (pmin 0 x == 0 \/ pmin 0 x == x).
Proof. unfold pmin. destruct (Qltb_spec x 0); split; try split; lra. Qed.

(** The run with the lower thresholds never has both sums beyond its threshold; then each of its two
    sides has reported at least as often, and if equally often then its sum is at least as far. *)
Definition c_rel (inv : nat -> cusum_state -> Prop) (base k : nat) (a b : cusum_state) : Prop :=
  not_earlier (cs_idx a) (cs_idx b) /\ upto (cs_idx a) (k - 1) /\ inv k a /\ 0 <= cs_pos a /\ cs_neg a <= 0 /\ 0 <= cs_pos b /\ cs_neg b <= 0 /\
  exists ua da ub db, (length (cs_idx a) = base + ua + da)%nat /\ (length (cs_idx b) = base + ub + db)%nat /\
    ((ub < ua)%nat \/ (ub = ua /\ cs_pos b <= cs_pos a)) /\ ((db < da)%nat \/ (db = da /\ cs_neg a <= cs_neg b)).

(** One step, whatever the order of the two tests: [ev] says what a run reports. *)
Inductive fires := Up | Down | Nothing.
Definition fired (e : fires) (k : nat) (idx : list nat) (x y : Q) : cusum_state :=
  match e with Up => mkCS (idx ++ [k]) 0 y | Down => mkCS (idx ++ [k]) x 0 | Nothing => mkCS idx x y end.
Lemma c_step (inv : nat -> cusum_state -> Prop) base k a b r ea eb :
  let xa := pmax 0 (cs_pos a + r) in let ya := pmin 0 (cs_neg a + r) in
  let xb := pmax 0 (cs_pos b + r) in let yb := pmin 0 (cs_neg b + r) in
  (0 < k)%nat -> c_rel inv base k a b ->
  inv (S k) (fired ea k (cs_idx a) xa ya) ->
  (eb = Up -> xb <= xa -> ea = Up) -> (eb = Down -> ya <= yb -> ea = Down) ->
  c_rel inv base (S k) (fired ea k (cs_idx a) xa ya) (fired eb k (cs_idx b) xb yb).
Proof.
  intros xa ya xb yb Hk (N & U & I & Pa & Na & Pb & Nb & ua & da & ub & db & La & Lb & Ru & Rd) I' HU HD.
  destruct (pmax0 (cs_pos a + r)) as (A1 & A2 & A3). destruct (pmin0 (cs_neg a + r)) as (A4 & A5 & A6).
  destruct (pmax0 (cs_pos b + r)) as (B1 & B2 & B3). destruct (pmin0 (cs_neg b + r)) as (B4 & B5 & B6).
  fold xa in A1, A2, A3. fold ya in A4, A5, A6. fold xb in B1, B2, B3. fold yb in B4, B5, B6.
  assert (Ru' : (ub < ua)%nat \/ ub = ua /\ xb <= xa).
  { destruct Ru as [Ru|[E Ru]]; [left; exact Ru|right; split; [exact E|]]. destruct B3; lra. }
  assert (Rd' : (db < da)%nat \/ db = da /\ ya <= yb).
  { destruct Rd as [Rd|[E Rd]]; [left; exact Rd|right; split; [exact E|]]. destruct B6; lra. }
  apply (upto_le _ _ k) in U; [|lia]. clearbody xa ya xb yb. clear A2 A3 A5 A6 B2 B3 B5 B6 Ru Rd.
  unfold c_rel. split; [|split; [|split; [exact I'|]]].
  - destruct ea, eb; cbn [fired cs_idx] in *; try exact N;
      try (apply ne_both; [exact N|exact U]); try (apply ne_a; exact N).
    + apply ne_b; [exact N| |exact U]. assert (ub < ua)%nat by (destruct Ru' as [|[_ R]]; [assumption|specialize (HU eq_refl R); discriminate]).
      destruct Rd' as [|[? _]]; lia.
    + apply ne_b; [exact N| |exact U]. assert (db < da)%nat by (destruct Rd' as [|[_ R]]; [assumption|specialize (HD eq_refl R); discriminate]).
      destruct Ru' as [|[? _]]; lia.
  - replace (S k - 1)%nat with k by lia. destruct ea; cbn [fired cs_idx]; try exact U; now apply upto_app.
  - split; [destruct ea; cbn [fired cs_pos]; lra|]. split; [destruct ea; cbn [fired cs_neg]; lra|].
    split; [destruct eb; cbn [fired cs_pos]; lra|]. split; [destruct eb; cbn [fired cs_neg]; lra|].
    exists (ua + match ea with Up => 1 | _ => 0 end)%nat, (da + match ea with Down => 1 | _ => 0 end)%nat,
           (ub + match eb with Up => 1 | _ => 0 end)%nat, (db + match eb with Down => 1 | _ => 0 end)%nat.
    split; [destruct ea; cbn [fired cs_idx]; rewrite ?app_length; cbn [length]; lia|].
    split; [destruct eb; cbn [fired cs_idx]; rewrite ?app_length; cbn [length]; lia|].
    split.
    + destruct Ru' as [R|[E R]].
      * destruct ea, eb; cbn [fired cs_pos]; first [left; lia|
          destruct (Nat.eq_dec (ub + 1) ua); [right; split; [lia|lra]|left; lia]].
      * destruct eb; [rewrite (HU eq_refl R); cbn [fired cs_pos]; right; split; [lia|lra]| |];
          destruct ea; cbn [fired cs_pos]; first [left; lia|right; split; [lia|lra]].
    + destruct Rd' as [R|[E R]].
      * destruct ea, eb; cbn [fired cs_neg]; first [left; lia|
          destruct (Nat.eq_dec (db + 1) da); [right; split; [lia|lra]|left; lia]].
      * destruct eb; [|rewrite (HD eq_refl R); cbn [fired cs_neg]; right; split; [lia|lra]|];
          destruct ea; cbn [fired cs_neg]; first [left; lia|right; split; [lia|lra]].
Qed.

Section Filter.
  Variables (ln : Q -> Q) (xs : list Q) (thr thr' : list (option Q)) (t : nat -> Q).
  Hypothesis Ht : forall i, (1 <= i < length xs)%nat -> nth i thr None = Some (t i) /\ 0 <= t i.
  Hypothesis Hs : steady (length xs) t.
  Hypothesis Hg : forall i u, (1 <= i < length xs)%nat -> nth i thr' None = Some u -> t i <= u.

  Definition fi (k : nat) (a : cusum_state) : Prop :=
    cs_pos a - cs_neg a <= 0 \/ exists j, (1 <= j < k)%nat /\ cs_pos a - cs_neg a <= t j.

  Lemma fi_step k a : (1 <= k < length xs)%nat -> fi k a -> 0 <= cs_pos a -> cs_neg a <= 0 ->
    let r := log_ret ln xs k in let x := pmax 0 (cs_pos a + r) in let y := pmin 0 (cs_neg a + r) in
    ~ (t k < x /\ y < - t k) /\
    exists e, cusum_filter_step ln xs thr a k = fired e k (cs_idx a) x y /\
      (t k < x -> e = Up) /\ (y < - t k -> e = Down) /\ fi (S k) (fired e k (cs_idx a) x y).
  Proof.
    intros Hk I Pa Na r x y. destruct (Ht k Hk) as [Ek Pk].
    destruct (pmax0 (cs_pos a + r)) as (A1 & A2 & A3). destruct (pmin0 (cs_neg a + r)) as (A4 & A5 & A6).
    fold x in A1, A2, A3. fold y in A4, A5, A6.
    assert (NB : ~ (t k < x /\ y < - t k)).
    { intros [X Y]. destruct A3 as [A3|A3]; [lra|]. destruct A6 as [A6|A6]; [lra|].
      destruct I as [I|[j [Hj I]]]; [lra|]. assert (S1 := Hs j k ltac:(lia) ltac:(lia)). lra. }
    split; [exact NB|]. unfold cusum_filter_step. rewrite Ek. cbv zeta. fold r. fold x. fold y. clearbody x y.
    destruct (Qltb_spec y (- t k)) as [F|F]; [|destruct (Qltb_spec (t k) x) as [G|G]].
    - exists Down. split; [reflexivity|]. split; [intro; exfalso; apply NB; split; assumption|]. split; [reflexivity|].
      right. exists k. split; [lia|]. cbn [fired cs_pos cs_neg].
      assert (~ t k < x) by (intro; apply NB; split; assumption). lra.
    - exists Up. split; [reflexivity|]. split; [reflexivity|]. split; [intro; exfalso; lra|].
      right. exists k. split; [lia|]. cbn [fired cs_pos cs_neg]. lra.
    - exists Nothing. split; [reflexivity|]. split; [intro; exfalso; lra|]. split; [intro; exfalso; lra|].
      unfold fi. cbn [fired cs_pos cs_neg]. destruct A3 as [A3|A3]; [right; exists k; split; [lia|lra]|].
      destruct A6 as [A6|A6]; [right; exists k; split; [lia|lra]|].
      destruct I as [I|[j [Hj I]]]; [left; lra|right; exists j; split; [lia|lra]].
  Qed.
  Lemma fb_step k b : (1 <= k < length xs)%nat ->
    let r := log_ret ln xs k in let x := pmax 0 (cs_pos b + r) in let y := pmin 0 (cs_neg b + r) in
    exists e, cusum_filter_step ln xs thr' b k = fired e k (cs_idx b) x y /\
      (e = Up -> t k < x) /\ (e = Down -> y < - t k).
  Proof.
    intros Hk r x y. unfold cusum_filter_step. cbv zeta. fold r. fold x. fold y. specialize (Hg k).
    destruct (nth k thr' None) as [u|].
    - specialize (Hg u Hk eq_refl). clearbody x y. destruct (Qltb_spec y (- u)) as [F|F]; [|destruct (Qltb_spec u x) as [G|G]].
      + exists Down. split; [reflexivity|]. split; [discriminate|intro; lra].
      + exists Up. split; [reflexivity|]. split; [intro; lra|discriminate].
      + exists Nothing. split; [reflexivity|]. split; discriminate.
    - exists Nothing. split; [reflexivity|]. split; discriminate.
  Qed.

  Lemma filter_mono_fold : not_earlier
    (cs_idx (fold_left (cusum_filter_step ln xs thr) (seq 1 (length xs - 1)) (mkCS [] 0 0)))
    (cs_idx (fold_left (cusum_filter_step ln xs thr') (seq 1 (length xs - 1)) (mkCS [] 0 0))).
  Proof.
    destruct xs as [|x0 xs0] eqn:Ex; [cbn; apply ne_refl|]. rewrite <- Ex in *.
    assert (L : (1 <= length xs)%nat) by (rewrite Ex; cbn; lia).
    apply (couple (c_rel fi 0) _ _ 1 (length xs)); [|lia|lia|].
    - intros k a b Hk R. pose proof R as (_ & _ & I & Pa & Na & _).
      destruct (fi_step k a Hk I Pa Na) as (_ & ea & Ea & U & D & I'). destruct (fb_step k b Hk) as (eb & Eb & U' & D').
      rewrite Ea, Eb. apply c_step; [lia|exact R|exact I'| |].
      + intros E X. apply U. specialize (U' E). lra.
      + intros E X. apply D. specialize (D' E). lra.
    - unfold c_rel. cbn [cs_idx cs_pos cs_neg]. split; [apply ne_refl|]. split; [intros k Hk; cbn in Hk; lia|].
      split; [left; cbn [cs_pos cs_neg]; lra|]. split; [lra|]. split; [lra|]. split; [lra|]. split; [lra|].
      exists 0%nat, 0%nat, 0%nat, 0%nat. cbn [length]. repeat split; try reflexivity; right; split; try reflexivity; lra.
  Qed.
End Filter.

Section Bars.
  Variables (ln : Q -> Q) (xs : list Q) (ts : list Z) (sg sg' : list (option Q)) (flr flr' mult mult' : Q) (f : nat) (lam : nat -> Q).
  Hypothesis Hts : forall i, (f < i)%nat -> (i + 1 < length xs)%nat -> nth i ts 0%Z <> nth (i + 1) ts 0%Z.
  Hypothesis Hl : forall i, (f < i < length xs)%nat -> cusum_lam sg flr mult i = Some (lam i) /\ 0 < lam i.
  Hypothesis Hs : forall i j, (f < i < j)%nat -> (j < length xs)%nat -> lam i <= 2 * lam j.
  Hypothesis Hg : forall i u, (f < i < length xs)%nat -> cusum_lam sg' flr' mult' i = Some u -> lam i <= u.

  Definition bi (k : nat) (a : cusum_state) : Prop :=
    cs_pos a - cs_neg a <= 0 \/ exists j, (f < j < k)%nat /\ cs_pos a - cs_neg a < lam j.
  Lemma no_block k : (f < k < length xs)%nat -> ((k + 1 <? length xs)%nat && (nth k ts 0 =? nth (k + 1) ts 0)%Z)%bool = false.
  Proof.
    intro Hk. destruct (Nat.ltb_spec (k + 1) (length xs)) as [L|L]; [|reflexivity]. cbn [andb].
    apply Z.eqb_neq. apply Hts; lia.
  Qed.
  Lemma bi_step k a : (f < k < length xs)%nat -> bi k a -> 0 <= cs_pos a -> cs_neg a <= 0 ->
    let r := log_ret ln xs k in let x := pmax 0 (cs_pos a + r) in let y := pmin 0 (cs_neg a + r) in
    exists e, cusum_bar_step ln ts xs sg flr mult a k = fired e k (cs_idx a) x y /\
      (lam k <= x -> e = Up) /\ (y <= - lam k -> e = Down) /\ bi (S k) (fired e k (cs_idx a) x y).
  Proof.
    intros Hk I Pa Na r x y. destruct (Hl k Hk) as [Ek Pk].
    destruct (pmax0 (cs_pos a + r)) as (A1 & A2 & A3). destruct (pmin0 (cs_neg a + r)) as (A4 & A5 & A6).
    fold x in A1, A2, A3. fold y in A4, A5, A6.
    assert (NB : ~ (lam k <= x /\ y <= - lam k)).
    { intros [X Y]. destruct A3 as [A3|A3]; [lra|]. destruct A6 as [A6|A6]; [lra|].
      destruct I as [I|[j [Hj I]]]; [lra|]. assert (S1 := Hs j k ltac:(lia) ltac:(lia)). lra. }
    unfold cusum_bar_step. rewrite no_block by exact Hk. rewrite Ek. cbv zeta. fold r. fold x. fold y. clearbody x y.
    destruct (Qleb_spec (lam k) x) as [F|F]; [|destruct (Qleb_spec y (- lam k)) as [G|G]].
    - exists Up. split; [reflexivity|]. split; [reflexivity|]. split; [intro; exfalso; apply NB; split; assumption|].
      right. exists k. split; [lia|]. cbn [fired cs_pos cs_neg].
      assert (~ y <= - lam k) by (intro; apply NB; split; assumption). lra.
    - exists Down. split; [reflexivity|]. split; [intro; exfalso; lra|]. split; [reflexivity|].
      right. exists k. split; [lia|]. cbn [fired cs_pos cs_neg]. lra.
    - exists Nothing. split; [reflexivity|]. split; [intro; exfalso; lra|]. split; [intro; exfalso; lra|].
      unfold bi. cbn [fired cs_pos cs_neg]. destruct A3 as [A3|A3]; [right; exists k; split; [lia|lra]|].
      destruct A6 as [A6|A6]; [right; exists k; split; [lia|lra]|].
      destruct I as [I|[j [Hj I]]]; [left; lra|right; exists j; split; [lia|lra]].
  Qed.
  Lemma bb_step k b : (f < k < length xs)%nat ->
    let r := log_ret ln xs k in let x := pmax 0 (cs_pos b + r) in let y := pmin 0 (cs_neg b + r) in
    exists e, cusum_bar_step ln ts xs sg' flr' mult' b k = fired e k (cs_idx b) x y /\
      (e = Up -> lam k <= x) /\ (e = Down -> y <= - lam k).
  Proof.
    intros Hk r x y. unfold cusum_bar_step. rewrite no_block by exact Hk. cbv zeta. fold r. fold x. fold y. specialize (Hg k).
    destruct (cusum_lam sg' flr' mult' k) as [u|].
    - specialize (Hg u Hk eq_refl). clearbody x y. destruct (Qleb_spec u x) as [F|F]; [|destruct (Qleb_spec y (- u)) as [G|G]].
      + exists Up. split; [reflexivity|]. split; [intro; lra|discriminate].
      + exists Down. split; [reflexivity|]. split; [discriminate|intro; lra].
      + exists Nothing. split; [reflexivity|]. split; discriminate.
    - exists Nothing. split; [reflexivity|]. split; discriminate.
  Qed.
  Lemma bars_mono_fold : not_earlier
    (cs_idx (fold_left (cusum_bar_step ln ts xs sg flr mult) (seq (f + 1) (length xs - (f + 1))) (mkCS [f] 0 0)))
    (cs_idx (fold_left (cusum_bar_step ln ts xs sg' flr' mult') (seq (f + 1) (length xs - (f + 1))) (mkCS [f] 0 0))).
  Proof.
    destruct (Nat.le_gt_cases (length xs) (f + 1)) as [E|E].
    { replace (length xs - (f + 1))%nat with 0%nat by lia. cbn. apply ne_refl. }
    apply (couple (c_rel bi 1) _ _ (f + 1) (length xs)); [|lia|lia|].
    - intros k a b Hk R. pose proof R as (_ & _ & I & Pa & Na & _).
      destruct (bi_step k a ltac:(lia) I Pa Na) as (ea & Ea & U & D & I'). destruct (bb_step k b ltac:(lia)) as (eb & Eb & U' & D').
      rewrite Ea, Eb. apply c_step; [lia|exact R|exact I'| |].
      + intros H X. apply U. specialize (U' H). lra.
      + intros H X. apply D. specialize (D' H). lra.
    - unfold c_rel. cbn [cs_idx cs_pos cs_neg]. split; [apply ne_refl|]. split; [intros [|k] Hk; cbn in *; lia|].
      split; [left; cbn [cs_pos cs_neg]; lra|]. split; [lra|]. split; [lra|]. split; [lra|]. split; [lra|].
      exists 0%nat, 0%nat, 0%nat, 0%nat. cbn [length]. repeat split; try reflexivity; right; split; try reflexivity; lra.
  Qed.
End Bars.

Lemma filter_mono ln xs thr thr' t :
  (forall i, (1 <= i < length xs)%nat -> nth i (expand_threshold (length xs) thr) None = Some (t i) /\ 0 <= t i) ->
  steady (length xs) t ->
  (forall i u, (1 <= i < length xs)%nat -> nth i (expand_threshold (length xs) thr') None = Some u -> t i <= u) ->
  (length thr = 1%nat \/ length thr = length xs) -> (length thr' = 1%nat \/ length thr' = length xs) -> (1 < length xs)%nat ->
  exists a b, cusum_filter ln xs thr = Ok a /\ cusum_filter ln xs thr' = Ok b /\ not_earlier a b.
Proof.
  intros Ht Hs Hg L L' Ln.
  exists (cs_idx (fold_left (cusum_filter_step ln xs (expand_threshold (length xs) thr)) (seq 1 (length xs - 1)) (mkCS [] 0 0))),
         (cs_idx (fold_left (cusum_filter_step ln xs (expand_threshold (length xs) thr')) (seq 1 (length xs - 1)) (mkCS [] 0 0))).
  assert (C : forall th : list (option Q), length th = 1%nat \/ length th = length xs -> (negb (length th =? 1)%nat && negb (length th =? length xs)%nat)%bool = false).
  { intros th [E|E]; rewrite E, Nat.eqb_refl; cbn [negb andb]; [reflexivity|apply andb_false_r]. }
  unfold cusum_filter. replace (length xs <=? 1)%nat with false by (symmetry; apply Nat.leb_gt; lia). rewrite !C by assumption. cbv zeta.
  split; [reflexivity|]. split; [reflexivity|]. apply (filter_mono_fold ln xs _ _ t Ht Hs Hg).
Qed.

Lemma bars_mono ln xs ts sigma flr flr' mult mult' f :
  first_known sigma f -> length sigma = length xs -> 0 < flr -> flr <= flr' -> mult <= mult' ->
  (forall i s, nth i sigma None = Some s -> 0 <= s) ->
  (forall i, (f < i)%nat -> (i + 1 < length xs)%nat -> nth i ts 0%Z <> nth (i + 1) ts 0%Z) ->
  (forall i j a b, (i <= j)%nat -> nth i sigma None = Some a -> nth j sigma None = Some b ->
     Qmax (mult * a) flr <= 2 * Qmax (mult * b) flr) ->
  not_earlier (cusum_bar_indexer ln ts xs sigma flr mult) (cusum_bar_indexer ln ts xs sigma flr' mult').
Proof.
  intros Hf Hlen Hp Hfl Hm Hn Hts Hs. unfold cusum_bar_indexer. cbv zeta.
  pose proof (first_known_some _ _ Hf) as E. unfold first_non_nan. rewrite E.
  set (lam := fun i => match nth i (fill_sigma sigma) None with Some s => pmax (mult * s) flr | None => flr end).
  assert (PM : forall x fl, pmax x fl == Qmax x fl).
  { intros x fl. unfold pmax. destruct (Qltb_spec x fl) as [C|C].
    - symmetry. apply Q.max_r. lra.
    - symmetry. apply Q.max_l. lra. }
  apply (bars_mono_fold ln xs ts _ _ flr flr' mult mult' f lam Hts).
  - intros i Hi. destruct (fill_sigma_known sigma f i Hf ltac:(lia)) as [s [Es _]].
    unfold cusum_lam, lam. rewrite Es. split; [reflexivity|]. rewrite PM.
    pose proof (Q.le_max_r (mult * s) flr). lra.
  - intros i j Hij Hj. unfold lam.
    destruct (fill_sigma_known sigma f i Hf ltac:(lia)) as [a [Ea [ka [Ka1 [Ka2 Ka3]]]]].
    destruct (fill_sigma_known sigma f j Hf ltac:(lia)) as [b [Eb [kb [Kb1 [Kb2 Kb3]]]]].
    rewrite Ea, Eb, !PM. apply (Hs ka kb a b); auto.
    destruct (Nat.le_gt_cases ka kb) as [|C]; [assumption|]. rewrite (Kb3 ka) in Ka2 by lia. discriminate.
  - intros i u Hi. destruct (fill_sigma_known sigma f i Hf ltac:(lia)) as [s [Es [k [K1 [K2 K3]]]]].
    unfold cusum_lam, lam. rewrite Es. intros [= <-]. rewrite !PM. specialize (Hn k s K2).
    assert (mult * s <= mult' * s) by (apply Qmult_le_compat_r; assumption).
    pose proof (Q.le_max_r (mult' * s) flr'). pose proof (Q.le_max_l (mult' * s) flr').
    apply Q.max_lub; lra.
Qed.
