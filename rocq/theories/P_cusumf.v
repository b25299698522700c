(** P_cusumf.v -- CUSUM sums in float64 stay near the exact ones, and events agree away from the threshold. *)
From Verif Require Import Base M_logic M_sampling M_float M_float4 S_float S_logic P_float P_float2 P_float3 P_float9.
Open Scope Q_scope.

Inductive decision := DNone | DUp | DDown.
(** Common form of the steps. *)
Definition gstep (op : Q -> Q) (r : nat -> Q) (D : nat -> Q -> Q -> decision) (s : cusum_state) (i : nat) : cusum_state :=
  let p := pmax 0 (op (cs_pos s + r i)) in let n := pmin 0 (op (cs_neg s + r i)) in
  match D i p n with DNone => mkCS (cs_idx s) p n | DUp => mkCS (cs_idx s ++ [i]) 0 n | DDown => mkCS (cs_idx s ++ [i]) p 0 end.

Definition cerr (B d : Q) (k : nat) : Q := (B + d * (1 + u53) / u53) * ee k.
Lemma u53_pos : 0 < u53.
Proof. vm_compute. reflexivity. Qed.
Lemma cerr_S B d k : cerr B d (S k) == (1 + u53) * (cerr B d k + d) + u53 * B.
Proof. unfold cerr. rewrite ee_S. pose proof u53_pos. field. lra. Qed.
Lemma cerr_nonneg B d k : 0 <= B -> 0 <= d -> 0 <= cerr B d k.
Proof.
  intros HB Hd. unfold cerr. pose proof u53_pos. apply Qmult_le_0_compat; [|apply ee_nonneg]. assert (0 <= d * (1 + u53) / u53) by (apply Qle_shift_div_l; [assumption|]; rewrite Qmult_0_l; apply Qmult_le_0_compat; lra). lra.
Qed.
Lemma cerr_mono B d k m : 0 <= B -> 0 <= d -> (k <= m)%nat -> cerr B d k <= cerr B d m.
Proof.
  intros HB Hd H. unfold cerr. pose proof u53_pos. assert (0 <= d * (1 + u53) / u53) by (apply Qle_shift_div_l; [assumption|]; rewrite Qmult_0_l; apply Qmult_le_0_compat; lra).
  rewrite !(Qmult_comm (B + _)). apply Qmult_le_compat_r; [now apply ee_mono|lra].
Qed.

Section Sync.
  Variables (r rf : nat -> Q) (D Df : nat -> Q -> Q -> decision) (B d : Q) (f n : nat).
  Hypothesis HB : 0 <= B.
  Hypothesis Hd : 0 <= d.
  Hypothesis Hr : forall i, (f < i < n)%nat -> Qabs (rf i - r i) <= d.
  Hypothesis HW : forall a i, (f < a <= i)%nat -> (i < n)%nat -> Qabs (ssum r a (S i)) <= B.
  Hypothesis HD : forall i a b p m p' m', (f < i < n)%nat -> (f < a <= S i)%nat -> (f < b <= S i)%nat -> p == ssum r a (S i) -> m == ssum r b (S i) ->
    Qabs (p' - p) <= cerr B d (i - f) -> Qabs (m' - m) <= cerr B d (i - f) -> Df i p' m' = D i p m.

  Definition near_state (k : nat) (s s' : cusum_state) : Prop :=
    cs_idx s' = cs_idx s /\ (exists a, (f < a <= S (f + k))%nat /\ cs_pos s == ssum r a (S (f + k))) /\ (exists b, (f < b <= S (f + k))%nat /\ cs_neg s == ssum r b (S (f + k))) /\
    Qabs (cs_pos s' - cs_pos s) <= cerr B d k /\ Qabs (cs_neg s' - cs_neg s) <= cerr B d k.
  Lemma sum_err k i a x y : (i = f + S k)%nat -> (i < n)%nat -> (f < a <= i)%nat -> x == ssum r a i -> Qabs (y - x) <= cerr B d k ->
    x + r i == ssum r a (S i) /\ Qabs (r53 (y + rf i) - (x + r i)) <= cerr B d (S k).
  Proof.
    intros Ei Hi Ha Ex Ey. assert (E : x + r i == ssum r a (S i)) by (rewrite (ssum_split r a i (S i)) by lia; rewrite (ssum_cons r i (S i)) by lia; rewrite (ssum_nil r (S i) (S i)) by lia; rewrite Ex; ring).
    split; [exact E|]. pose proof (r53_err (y + rf i)) as R. pose proof (Hr i ltac:(lia)) as Ri. pose proof (HW a i ltac:(lia) Hi) as W. rewrite <- E in W.
    rewrite cerr_S. set (e := cerr B d k) in *. set (z := r53 (y + rf i)) in *. pose proof u53_pos as U. set (u := u53) in *. clearbody e z u.
    assert (X : Qabs (y + rf i) <= B + e + d).
    { setoid_replace (y + rf i) with ((x + r i) + ((y - x) + (rf i - r i))) by ring. eapply Qle_trans; [apply Qabs_triangle|]. pose proof (Qabs_triangle (y - x) (rf i - r i)). lra. }
    setoid_replace (z - (x + r i)) with ((z - (y + rf i)) + ((y - x) + (rf i - r i))) by ring. eapply Qle_trans; [apply Qabs_triangle|]. pose proof (Qabs_triangle (y - x) (rf i - r i)).
    assert (Qabs (y + rf i) * u <= (B + e + d) * u) by (apply Qmult_le_compat_r; lra). lra.
  Qed.
  Lemma pmax_lip a b : Qabs (pmax 0 a - pmax 0 b) <= Qabs (a - b).
  Proof. pose proof (Qle_Qabs (a - b)). pose proof (Qle_Qabs (b - a)). rewrite (Qabs_Qminus b a) in *. unfold pmax. apply Qabs_Qle_condition. destruct (Qltb_spec 0 a), (Qltb_spec 0 b); lra. Qed.
  Lemma pmin_lip a b : Qabs (pmin 0 a - pmin 0 b) <= Qabs (a - b).
  Proof. pose proof (Qle_Qabs (a - b)). pose proof (Qle_Qabs (b - a)). rewrite (Qabs_Qminus b a) in *. unfold pmin. apply Qabs_Qle_condition. destruct (Qltb_spec a 0), (Qltb_spec b 0); lra. Qed.
  Lemma sync_step k s s' : (f + S k < n)%nat -> near_state k s s' ->
    near_state (S k) (gstep (fun x => x) r D s (f + S k)) (gstep r53 rf Df s' (f + S k)).
  Proof.
    intros Hi (I & (a & Ha & Ea) & (b & Hb & Eb) & Np & Nn). set (i := (f + S k)%nat) in *. replace (S (f + k)) with i in * by (unfold i; lia).
    destruct (sum_err k i a (cs_pos s) (cs_pos s') eq_refl Hi ltac:(lia) Ea Np) as [P1 P2]. destruct (sum_err k i b (cs_neg s) (cs_neg s') eq_refl Hi ltac:(lia) Eb Nn) as [N1 N2].
    unfold gstep. cbv zeta. set (p := pmax 0 (cs_pos s + r i)). set (m := pmin 0 (cs_neg s + r i)). set (p' := pmax 0 (r53 (cs_pos s' + rf i))). set (m' := pmin 0 (r53 (cs_neg s' + rf i))).
    assert (Dp : Qabs (p' - p) <= cerr B d (S k)) by (eapply Qle_trans; [apply pmax_lip|exact P2]). assert (Dm : Qabs (m' - m) <= cerr B d (S k)) by (eapply Qle_trans; [apply pmin_lip|exact N2]).
    assert (Z : ssum r (S i) (S i) == 0) by (rewrite ssum_nil by lia; reflexivity).
    assert (Wp : exists a', (f < a' <= S i)%nat /\ p == ssum r a' (S i)).
    { unfold p, pmax. destruct (Qltb 0 (cs_pos s + r i)); [exists a; split; [lia|exact P1]|exists (S i); split; [lia|now rewrite Z]]. }
    assert (Wm : exists b', (f < b' <= S i)%nat /\ m == ssum r b' (S i)).
    { unfold m, pmin. destruct (Qltb (cs_neg s + r i) 0); [exists b; split; [lia|exact N1]|exists (S i); split; [lia|now rewrite Z]]. }
    destruct Wp as (a' & Ha' & Ea'). destruct Wm as (b' & Hb' & Eb').
    assert (DD : Df i p' m' = D i p m) by (apply (HD i a' b'); try assumption; try lia; replace (i - f)%nat with (S k) by (unfold i; lia); assumption).
    rewrite DD. unfold near_state. replace (f + S k)%nat with i by reflexivity.
    assert (C0 : 0 <= cerr B d (S k)) by now apply cerr_nonneg. assert (A0 : Qabs (0 - 0) <= cerr B d (S k)) by exact C0.
    assert (ZZ : exists z, (f < z <= S i)%nat /\ 0 == ssum r z (S i)) by (exists (S i); split; [lia|now rewrite Z]).
    destruct (D i p m); cbn [cs_idx cs_pos cs_neg]; rewrite I; (split; [reflexivity|]); (split; [try exact ZZ; exists a'; auto|]); (split; [try exact ZZ; exists b'; auto|]); split; assumption.
  Qed.
  Lemma sync_fold s s' : near_state 0 s s' -> forall k, (f + k < n)%nat ->
    near_state k (fold_left (gstep (fun x => x) r D) (seq (f + 1) k) s) (fold_left (gstep r53 rf Df) (seq (f + 1) k) s').
  Proof.
    intros H0. induction k as [|k IH]; intro Hk; [exact H0|]. rewrite seq_S, !fold_left_app. cbn [fold_left]. replace (f + 1 + k)%nat with (f + S k)%nat by lia.
    apply sync_step; [exact Hk|]. apply IH. lia.
  Qed.
End Sync.
Lemma fold_gstep {T} (F G : T -> nat -> T) l s : (forall s i, In i l -> F s i = G s i) -> fold_left F l s = fold_left G l s.
Proof. revert s. induction l as [|i l IH]; intros s H; [reflexivity|]. cbn [fold_left]. rewrite (H s i) by now left. apply IH. intros; apply H; now right. Qed.

(** Comparisons away from the threshold. *)
Lemma far_ltb x y t e : Qabs (y - x) <= e -> e < Qabs (x - t) -> Qltb t y = Qltb t x /\ Qltb y t = Qltb x t /\ Qleb t y = Qleb t x /\ Qleb y t = Qleb x t.
Proof.
  intros A H. apply Qabs_Qle_condition in A. assert (K : x - t > e \/ x - t < - e).
  { revert H. apply Qabs_case; intros; [left|right]; lra. }
  repeat split; [destruct (Qltb_spec t y), (Qltb_spec t x)|destruct (Qltb_spec y t), (Qltb_spec x t)|destruct (Qleb_spec t y), (Qleb_spec t x)|destruct (Qleb_spec y t), (Qleb_spec x t)]; try reflexivity; exfalso; destruct K; lra.
Qed.
