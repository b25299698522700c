(** P_weightsf3.v -- class balance and final weights in float64. *)
From Coq Require Import Permutation.
From Verif Require Import Base M_weights S_weights P_weights P_weights2 P_weights4 M_float M_float2 M_float6 S_float S_sumf P_float P_float9 P_float12 P_float13 P_sumf P_weightsf P_weightsf2.
Open Scope Q_scope.

Lemma within_list {A} n (f g : A -> Q) l : (forall x, In x l -> within u53 n (f x) (g x)) -> within u53 n (qsum (map f l)) (qsum (map g l)).
Proof.
  induction l as [|x l IH]; intro H; [apply within_0|]. cbn [map]. eapply within_comp; [symmetry; apply qsum_cons|symmetry; apply qsum_cons|].
  apply within_plus; [apply H; now left|apply IH; intros; apply H; now right].
Qed.
Lemma class_total_within n labels w v c : (forall i, (i < length labels)%nat -> within u53 n (nth i w 0) (nth i v 0)) -> within u53 n (class_total labels w c) (class_total labels v c).
Proof. intro H. unfold class_total. apply within_list. intros i Hi. apply filter_In in Hi. destruct Hi as [Hi _]. apply in_seq in Hi. apply H. lia. Qed.
Lemma class_total_nonneg labels w c : length w = length labels -> (forall x, In x w -> 0 <= x) -> 0 <= class_total labels w c.
Proof.
  intros L H. unfold class_total. apply qsum_nonneg. intros x Hx. apply in_map_iff in Hx. destruct Hx as (i & <- & Hi). apply filter_In in Hi. destruct Hi as [Hi _]. apply in_seq in Hi. apply H, nth_In. lia.
Qed.
Lemma within_zero n a x : x == 0 -> within u53 n a x -> a == 0.
Proof. intros E [A B]. rewrite E in A, B. lra. Qed.
Lemma qsum_nth l : qsum l == qsum (map (fun i => nth i l 0) (seq 0 (length l))).
Proof. now rewrite nth_map_eq. Qed.

Section BalanceF.
  Variable sumf : list Q -> Q.
  Hypothesis HS : sums_somehow sumf.
  Variables (labels : list Z) (base : list Q).
  Hypothesis Hlen : length base = length labels.
  Hypothesis Hb : forall x, In x base -> 0 <= x.
  Let uniq := zunique labels.
  Let k := length uniq.
  Let idx i := ss_left uniq (nth i labels 0%Z).
  Let N := length labels.

  Lemma base_nonneg i : 0 <= nth i base 0.
  Proof. destruct (nth_in_or_default i base 0) as [H|H]; [now apply Hb|rewrite H; lra]. Qed.
  Lemma k_le_N : (k <= N)%nat.
  Proof. unfold k, N. apply NoDup_incl_length; [apply ssort_nodup, zunique_sorted|]. intros x Hx. exact (proj1 (zunique_in x labels) Hx). Qed.
  Lemma add_at_f_nth l i x j : (j < length l)%nat -> nth j (add_at_f l i x) 0 = if (j =? i)%nat then r53 (nth j l 0 + x) else nth j l 0.
  Proof. intro H. unfold add_at_f. now rewrite nth_map_seq. Qed.
  Definition part (m c : nat) : Q := qsum (map (fun i => nth i base 0) (filter (fun i => (nth i labels 0 =? nth c uniq 0)%Z) (seq 0 m))).
  Lemma part_nonneg m c : 0 <= part m c.
  Proof. apply qsum_nonneg. intros x Hx. apply in_map_iff in Hx. destruct Hx as (i & <- & _). apply base_nonneg. Qed.
  Lemma sums_f_inv m : (m <= N)%nat ->
    let s := fold_left (fun acc i => add_at_f acc (idx i) (nth i base 0)) (seq 0 m) (repeat 0 k) in
    length s = k /\ forall c, (c < k)%nat -> within u53 m (nth c s 0) (part m c).
  Proof.
    induction m as [|m IH]; intro Hm.
    - cbn [seq fold_left]. split; [apply repeat_length|]. intros c Hc. rewrite nth_repeat. apply within_0.
    - specialize (IH ltac:(lia)). cbv zeta in *. rewrite fold_left_seq_S. cbn [plus]. set (s := fold_left _ _ _) in *. destruct IH as [I1 I3].
      split; [unfold add_at_f; now rewrite map_length, seq_length|]. intros c Hc. rewrite add_at_f_nth by lia.
      assert (E : part (S m) c == part m c + if (nth m labels 0 =? nth c uniq 0)%Z then nth m base 0 else 0).
      { unfold part. rewrite seq_S, filter_app, map_app, qsum_app. cbn [plus filter]. destruct (nth m labels 0 =? nth c uniq 0)%Z; cbn; ring. }
      unfold idx, uniq. rewrite (idx_eq labels m c ltac:(exact Hm) Hc). fold uniq. specialize (I3 c Hc). pose proof (part_nonneg m c) as PN.
      destruct (nth m labels 0 =? nth c uniq 0)%Z.
      + eapply within_comp; [reflexivity|symmetry; exact E|]. apply within_sum; [exact I3|exact PN|apply base_nonneg].
      + eapply within_comp; [reflexivity|symmetry; rewrite E; apply Qplus_0_r|]. apply (within_le u53 u53_bounds m); [lia|exact PN|exact I3].
  Qed.
  Let sums := fold_left (fun acc i => add_at_f acc (idx i) (nth i base 0)) (seq 0 N) (repeat 0 k).
  Lemma total_f_within : within u53 (2 * N) (sumf sums) (qsum base).
  Proof.
    destruct (sums_f_inv N (le_n _)) as [L W]. cbv zeta in L, W. fold sums in L, W. pose proof k_le_N as KN.
    assert (E : qsum base == qsum (map (part N) (seq 0 k))).
    { rewrite (class_total_sum labels base Hlen) by exact Hlen. fold uniq. rewrite <- (map_seq_nth 0%Z (class_total labels base) uniq). reflexivity. }
    eapply within_comp; [reflexivity|symmetry; exact E|]. rewrite <- (nth_map_eq sums) at 1. rewrite L.
    apply (within_le u53 u53_bounds (N + length (seq 0 k))); [rewrite seq_length; lia|apply qsum_nonneg; intros x Hx; apply in_map_iff in Hx; destruct Hx as (c & <- & _); apply part_nonneg|].
    apply sum_within; [exact HS|]. intros c Hc. apply in_seq in Hc. split; [apply part_nonneg|apply W; lia].
  Qed.
  Let bf := class_balance_weights_f sumf labels base.
  Let b := class_balance_weights labels base.
  Lemma bal_f_len : length (bal_final bf) = N.
  Proof. unfold bf, class_balance_weights_f. cbn [bal_final]. now rewrite map_length, seq_length. Qed.
  Lemma bal_f_nth i : (i < N)%nat -> 0 <= nth i (bal_final b) 0 /\ within u53 (4 * N + 4) (nth i (bal_final bf) 0) (nth i (bal_final b) 0).
  Proof.
    intro Hi. split; [now apply bal_nonneg|]. destruct (idx_ok labels i Hi) as [H1 H2]. fold uniq in H1, H2. fold k in H1. fold (idx i) in H1, H2.
    destruct (sums_f_inv N (le_n _)) as [L W]. cbv zeta in L, W. fold sums in L, W. specialize (W (idx i) H1).
    assert (Et : part N (idx i) = class_total labels base (nth i labels 0%Z)) by (unfold part; rewrite H2; reflexivity). rewrite Et in W.
    pose proof (class_total_nonneg labels base (nth i labels 0%Z) Hlen Hb) as TN.
    assert (KP : 0 < Qnat k) by (apply Qnat_pos; lia). pose proof total_f_within as TW. assert (BN : 0 <= qsum base) by (apply qsum_nonneg; exact Hb).
    assert (EF : nth i (bal_final bf) 0 = r53 (nth i base 0 * (if Qltb 0 (nth (idx i) sums 0) then r53 (sumf sums / r53 (Qnat k * nth (idx i) sums 0)) else 0))).
    { unfold bf, class_balance_weights_f. cbn [bal_final]. cbv zeta. rewrite nth_map_seq by exact Hi. fold uniq. fold k. fold (idx i).
      change (fold_left (fun (acc : list Q) (i0 : nat) => add_at_f acc (ss_left uniq (nth i0 labels 0%Z)) (nth i0 base 0)) (seq 0 (length labels)) (repeat 0 k)) with sums. rewrite nth_map_seq by exact H1. reflexivity. }
    rewrite EF. eapply within_comp; [reflexivity|symmetry; apply (final_nth labels base Hlen i Hi)|]. cbv zeta. fold uniq. fold k. set (t := class_total labels base (nth i labels 0%Z)) in *. set (tf := nth (idx i) sums 0) in *.
    pose proof (base_nonneg i) as BI. replace (4 * N + 4)%nat with (S (0 + (4 * N + 3)))%nat by lia. destruct (Qltb_spec 0 t) as [T|T].
    - pose proof (within_pos N tf t T W) as TP. destruct (Qltb_spec 0 tf); [|lra]. assert (KT : 0 < Qnat k * t) by (apply Qmult_lt_0_compat; assumption).
      apply within_mult_r; [exact BI|apply Qle_shift_div_l; lra|apply within_self; [exact u53_bounds|exact BI]|].
      replace (4 * N + 3)%nat with (S (2 * N + 2 * (S N)))%nat by lia. apply within_div_r; [exact BN|exact KT|exact TW|]. apply within_r53; [lra|]. apply within_scale; [lra|exact W].
    - assert (T0 : t == 0) by lra. pose proof (within_zero N tf t T0 W) as TF. destruct (Qltb_spec 0 tf); [lra|]. assert (Z0 : nth i base 0 * 0 == 0) by ring.
      eapply within_comp; [symmetry; apply r53_is0; exact Z0|symmetry; exact Z0|apply within_0].
  Qed.
  Lemma bal_f_total c : In c labels -> 0 <= class_total labels (bal_final bf) c /\
    (0 < class_total labels base c -> within u53 (4 * N + 4) (class_total labels (bal_final bf) c) (qsum base / Qnat k)) /\
    (class_total labels base c <= 0 -> class_total labels (bal_final bf) c == 0).
  Proof.
    intro Hc. pose proof (class_final labels base Hlen c Hc) as CF. fold uniq in CF. fold k in CF. fold b in CF.
    assert (W : within u53 (4 * N + 4) (class_total labels (bal_final bf) c) (class_total labels (bal_final b) c)) by (apply class_total_within; intros i Hi; now apply bal_f_nth).
    split; [|split].
    - apply class_total_nonneg; [exact bal_f_len|]. intros x Hx. apply (In_nth _ _ 0) in Hx. destruct Hx as (i & Hi & <-). rewrite bal_f_len in Hi. destruct (bal_f_nth i Hi) as [P Q1]. exact (within_nonneg u53 u53_bounds _ _ _ Q1 P).
    - intro H. destruct (Qltb_spec 0 (class_total labels base c)); [|lra]. eapply within_comp; [reflexivity|exact CF|exact W].
    - intro H. destruct (Qltb_spec 0 (class_total labels base c)); [lra|]. exact (within_zero _ _ _ CF W).
  Qed.
End BalanceF.

Lemma qsum_len_pos (l : list Q) : 0 < qsum l -> (0 < length l)%nat.
Proof. intro H. destruct l; [cbn in H; lra|cbn; lia]. Qed.
Lemma nth_nonneg (l : list Q) i : (forall x, In x l -> 0 <= x) -> 0 <= nth i l 0.
Proof. intro H. destruct (nth_in_or_default i l 0) as [X|X]; [now apply H|rewrite X; lra]. Qed.
Section FinalF.
  Variable sumf : list Q -> Q.
  Hypothesis HS : sums_somehow sumf.
  Variables (u : list Q) (lw : Q) (attr vert : option (list Q)).
  Hypothesis Hu : forall x, In x u -> 0 <= x.
  Hypothesis HT : 0 < qsum u.
  Hypothesis Flw : fl 53 lw.
  Hypothesis Hlw : -1 < lw <= 1.
  Let n := length u.
  Hypothesis Ha : forall a, attr = Some a -> length a = n /\ 0 < qsum a /\ forall x, In x a -> 0 <= x.
  Hypothesis Hv : forall v, vert = Some v -> length v = n /\ forall x, In x v -> 0 <= x.
  Variable td : list Q.
  Hypothesis Htd : time_decay_f u lw = Ok td.

  Definition fin_raw (i : nat) : Q := nth i td 0 * match attr with Some a => nth i a 0 | None => nth i u 0 end * match vert with Some v => nth i v 0 | None => 1 end.
  Let rawl := map fin_raw (seq 0 n).
  (** The scale of the information weights. *)
  Let K := match attr with Some a => Qnat n / qsum a | None => 1 end.
  Let info := match attr with Some a => map (fun x => r53 (r53 (x * Qnat n) / sumf a)) a | None => u end.
  Let comb0 := map (fun i => r53 (nth i td 0 * nth i info 0)) (seq 0 n).
  Let comb := match vert with Some v => map (fun i => r53 (nth i comb0 0 * nth i v 0)) (seq 0 n) | None => comb0 end.

  Lemma n_pos' : (0 < n)%nat.
  Proof. exact (qsum_len_pos u HT). Qed.
  Lemma td_facts : length td = n /\ nth (n - 1) td 0 == 1 /\ forall i, 0 <= nth i td 0.
  Proof.
    destruct (decay_f_thm u lw Hu HT Flw Hlw) as (ws & wsf & _ & E & L & NW & M & _). rewrite Htd in E. injection E as <-. split; [exact L|]. split; [exact NW|].
    intro i. destruct (Nat.lt_ge_cases i n) as [Hi|Hi]; [apply (M i i); lia|]. rewrite nth_overflow by (fold n in L; lia). lra.
  Qed.
  Lemma K_pos : 0 < K.
  Proof. pose proof (Qnat_pos n n_pos'). unfold K. destruct attr as [a|]; [|lra]. destruct (Ha a eq_refl) as (_ & P & _). apply Qlt_shift_div_l; lra. Qed.
  Let x0 i := match attr with Some a => nth i a 0 | None => nth i u 0 end.
  Lemma x0_nonneg i : 0 <= x0 i.
  Proof. unfold x0. destruct attr as [a|]; [apply nth_nonneg; now apply Ha|now apply nth_nonneg]. Qed.
  Lemma info_within i : (i < n)%nat -> within u53 (2 * n + 2) (nth i info 0) (x0 i * K).
  Proof.
    intro Hi. pose proof (x0_nonneg i) as XN. unfold info, x0, K in *. destruct attr as [a|].
    - destruct (Ha a eq_refl) as (L & P & A). rewrite (nth_indep _ 0 ((fun x => r53 (r53 (x * Qnat n) / sumf a)) 0)) by (rewrite map_length; lia). rewrite (map_nth (fun x => r53 (r53 (x * Qnat n) / sumf a))).
      pose proof (Qnat_nonneg n) as NN. assert (XP : 0 <= nth i a 0 * Qnat n) by (apply Qmult_le_0_compat; assumption).
      apply (within_comp u53 _ (r53 (r53 (nth i a 0 * Qnat n) / sumf a)) (nth i a 0 * Qnat n / qsum a)); [reflexivity|field; lra|].
      replace (2 * n + 2)%nat with (S (1 + 2 * n))%nat by lia. apply within_div_r; [exact XP|exact P|apply within_r53; [exact XP|apply within_self; [exact u53_bounds|exact XP]]|]. rewrite <- L. now apply list_sum_within.
    - apply within_exact; [lra|ring].
  Qed.
  Lemma raw_nonneg i : 0 <= fin_raw i.
  Proof.
    unfold fin_raw. destruct td_facts as (_ & _ & T). pose proof (x0_nonneg i) as X. unfold x0 in X. apply Qmult_le_0_compat; [apply Qmult_le_0_compat; [apply T|exact X]|]. destruct vert as [v|]; [apply nth_nonneg; now apply Hv|lra].
  Qed.
  Lemma comb_len : length comb = n.
  Proof. unfold comb. destruct vert; [now rewrite map_length, seq_length|unfold comb0; now rewrite map_length, seq_length]. Qed.
  Lemma comb_within i : (i < n)%nat -> within u53 (2 * n + 4) (nth i comb 0) (fin_raw i * K).
  Proof.
    intro Hi. destruct td_facts as (_ & _ & T). pose proof (x0_nonneg i) as XN. pose proof K_pos as KP. pose proof (info_within i Hi) as IW. assert (XK : 0 <= x0 i * K) by (apply Qmult_le_0_compat; lra).
    assert (C0 : within u53 (2 * n + 3) (nth i comb0 0) (nth i td 0 * (x0 i * K))).
    { unfold comb0. rewrite nth_map_seq by exact Hi. replace (2 * n + 3)%nat with (S (0 + (2 * n + 2)))%nat by lia. apply within_mult_r; [apply T|exact XK|apply within_self; [exact u53_bounds|apply T]|exact IW]. }
    assert (TX : 0 <= nth i td 0 * (x0 i * K)) by (apply Qmult_le_0_compat; [apply T|exact XK]).
    unfold comb, fin_raw. fold (x0 i). destruct vert as [v|].
    - destruct (Hv v eq_refl) as [L V]. rewrite nth_map_seq by exact Hi. eapply within_comp; [reflexivity| |replace (2 * n + 4)%nat with (S (2 * n + 3 + 0))%nat by lia; apply within_mult_r; [exact TX| |exact C0|apply within_self; [exact u53_bounds|]]]; [ring| |]; now apply nth_nonneg.
    - apply (within_le u53 u53_bounds (2 * n + 3)); [lia| |]; [|eapply within_comp; [reflexivity| |exact C0]; ring]. assert (E : nth i td 0 * x0 i * 1 * K == nth i td 0 * (x0 i * K)) by ring. rewrite E. exact TX.
  Qed.
  Lemma raw_sum : qsum (map (fun i => fin_raw i * K) (seq 0 n)) == qsum rawl * K.
  Proof. unfold rawl. apply qsum_map_mul_r. Qed.
  Lemma rawl_nonneg : 0 <= qsum rawl.
  Proof. apply qsum_nonneg. intros x Hx. apply in_map_iff in Hx. destruct Hx as (i & <- & _). apply raw_nonneg. Qed.
  Let mean := r53 (sumf comb / Qnat n).
  Lemma mean_f_within : within u53 (3 * n + 5) mean (qsum rawl * K / Qnat n).
  Proof.
    pose proof (Qnat_pos n n_pos') as NP. pose proof rawl_nonneg as RN. pose proof K_pos as KP. assert (0 <= qsum rawl * K) by (apply Qmult_le_0_compat; lra).
    unfold mean. replace (3 * n + 5)%nat with (S (2 * n + 4 + n)) by lia. apply within_quot; [assumption|exact NP|].
    eapply within_comp; [reflexivity|exact raw_sum|]. rewrite <- (nth_map_eq comb), comb_len. replace (2 * n + 4 + n)%nat with (2 * n + 4 + length (seq 0 n))%nat by (now rewrite seq_length).
    apply sum_within; [exact HS|]. intros i Hi. apply in_seq in Hi. split; [apply Qmult_le_0_compat; [apply raw_nonneg|lra]|apply comb_within; lia].
  Qed.
  Let base := map (fun x => r53 (x / mean)) comb.
  Lemma final_shape labels : (forall l, labels = Some l -> length l = n) -> compute_final_weights_f sumf u lw attr vert labels =
    if Qleb mean 0 then Raise ValueError else Ok (match labels with Some l => bal_final (class_balance_weights_f sumf l base) | None => base end).
  Proof.
    intro Hl. unfold compute_final_weights_f. destruct (Qleb_spec (-1) lw); [|lra]. destruct (Qleb_spec lw 1); [|lra]. cbn [andb negb].
    replace (match attr with Some a => negb (length a =? length u)%nat | None => false end) with false by (destruct attr as [a|]; [destruct (Ha a eq_refl) as (-> & _); unfold n; now rewrite Nat.eqb_refl|reflexivity]).
    replace (match vert with Some a => negb (length a =? length u)%nat | None => false end) with false by (destruct vert as [a|]; [destruct (Hv a eq_refl) as (-> & _); unfold n; now rewrite Nat.eqb_refl|reflexivity]).
    replace (match labels with Some a => negb (length a =? length u)%nat | None => false end) with false by (destruct labels as [a|]; [rewrite (Hl a eq_refl); unfold n; now rewrite Nat.eqb_refl|reflexivity]).
    rewrite Htd. replace (match attr with Some a => Qleb (sumf a) 0 | None => false end) with false.
    2:{ destruct attr as [a|]; [|reflexivity]. destruct (Ha a eq_refl) as (_ & P & A). apply (sum_pos_iff sumf HS a A) in P. destruct (Qleb_spec (sumf a) 0); [lra|reflexivity]. }
    reflexivity.
  Qed.
  Lemma mean_pos_iff : 0 < mean <-> 0 < qsum rawl.
  Proof.
    pose proof (Qnat_pos n n_pos') as NP. pose proof rawl_nonneg as RN. pose proof K_pos as KP. pose proof mean_f_within as W. split; intro H.
    - destruct (Qlt_le_dec 0 (qsum rawl)) as [|X]; [assumption|]. assert (E : qsum rawl * K / Qnat n == 0) by (assert (E0 : qsum rawl == 0) by lra; rewrite E0; field; lra). pose proof (within_zero _ _ _ E W). lra.
    - apply (within_pos _ _ _ (Qlt_shift_div_l 0 (qsum rawl * K) (Qnat n) NP ltac:(rewrite Qmult_0_l; apply Qmult_lt_0_compat; assumption)) W).
  Qed.
  Section Pos.
    Hypothesis HP : 0 < qsum rawl.
    Let goal i := fin_raw i * Qnat n / qsum rawl.
    Lemma base_len : length base = n.
    Proof. unfold base. now rewrite map_length, comb_len. Qed.
    Lemma goal_nonneg i : 0 <= goal i.
    Proof. unfold goal. pose proof (raw_nonneg i). pose proof (Qnat_nonneg n). assert (0 <= fin_raw i * Qnat n) by (apply Qmult_le_0_compat; assumption). apply Qle_shift_div_l; lra. Qed.
    Lemma base_within i : (i < n)%nat -> within u53 (8 * n + 15) (nth i base 0) (goal i).
    Proof.
      intro Hi. unfold base. rewrite (nth_indep _ 0 ((fun x => r53 (x / mean)) 0)) by (rewrite map_length, comb_len; exact Hi). rewrite (map_nth (fun x => r53 (x / mean))).
      pose proof (Qnat_pos n n_pos') as NP. pose proof K_pos as KP. pose proof (raw_nonneg i) as RI.
      apply (within_comp u53 _ (r53 (nth i comb 0 / mean)) (fin_raw i * K / (qsum rawl * K / Qnat n))); [reflexivity|unfold goal; field; repeat split; lra|].
      replace (8 * n + 15)%nat with (S (2 * n + 4 + 2 * (3 * n + 5)))%nat by lia.
      apply within_div_r; [apply Qmult_le_0_compat; lra| |now apply comb_within|exact mean_f_within]. apply Qlt_shift_div_l; [exact NP|]. rewrite Qmult_0_l. apply Qmult_lt_0_compat; assumption.
    Qed.
    Lemma goal_sum : qsum (map goal (seq 0 n)) == Qnat n.
    Proof.
      rewrite (qsum_map_ext _ (fun i => fin_raw i * (Qnat n / qsum rawl))) by (intros; unfold goal; field; lra). rewrite (qsum_map_mul_r (Qnat n / qsum rawl) fin_raw). fold rawl. field. lra.
    Qed.
    Lemma base_sum : within u53 (8 * n + 15) (qsum base) (Qnat n).
    Proof.
      eapply within_comp; [symmetry; apply qsum_nth|exact goal_sum|]. rewrite base_len. apply within_list. intros i Hi. apply in_seq in Hi. apply base_within. lia.
    Qed.
    Lemma base_all_nonneg x : In x base -> 0 <= x.
    Proof. intro Hx. apply (In_nth _ _ 0) in Hx. destruct Hx as (i & Hi & <-). rewrite base_len in Hi. exact (within_nonneg u53 u53_bounds _ _ _ (base_within i Hi) (goal_nonneg i)). Qed.
    Lemma final_plain : exists ws, compute_final_weights_f sumf u lw attr vert None = Ok ws /\ length ws = n /\
      (forall i, (i < n)%nat -> 0 <= nth i ws 0 /\ within u53 (8 * n + 15) (nth i ws 0) (goal i)) /\ within u53 (8 * n + 15) (qsum ws) (Qnat n).
    Proof.
      exists base. rewrite final_shape by discriminate. pose proof (proj2 mean_pos_iff HP) as MP. destruct (Qleb_spec mean 0) as [X0|X0]; [lra|]. split; [reflexivity|]. split; [exact base_len|]. split; [|exact base_sum].
      intros i Hi. split; [apply base_all_nonneg, nth_In; now rewrite base_len|now apply base_within].
    Qed.
    Lemma final_classes l : length l = n -> exists ws, compute_final_weights_f sumf u lw attr vert (Some l) = Ok ws /\ length ws = n /\
      forall k c, n_distinct l k -> In c l ->
        (0 < class_total l rawl c -> within u53 (12 * n + 19) (class_total l ws c) (Qnat n / Qnat k)) /\
        (class_total l rawl c <= 0 -> class_total l ws c == 0).
    Proof.
      intro Hl. eexists. rewrite final_shape by (intros ? [= <-]; exact Hl). pose proof (proj2 mean_pos_iff HP) as MP. destruct (Qleb_spec mean 0) as [X0|X0]; [lra|]. split; [reflexivity|].
      split; [rewrite bal_f_len; exact Hl|]. intros k c Hk Hc. pose proof (distinct_unique l k Hk) as Ek.
      assert (BL : length base = length l) by (rewrite base_len; now symmetry). destruct (bal_f_total sumf HS l base BL base_all_nonneg c Hc) as (_ & T1 & T2). rewrite <- Ek in T1.
      assert (CW : within u53 (8 * n + 15) (class_total l base c) (class_total l rawl c * (Qnat n / qsum rawl))).
      { assert (E : class_total l rawl c * (Qnat n / qsum rawl) == class_total l (map goal (seq 0 n)) c).
        { unfold class_total. rewrite <- qsum_map_mul_r. apply qsum_map_ext. intros i Hi. apply filter_In in Hi. destruct Hi as [Hi _]. apply in_seq in Hi. unfold rawl at 1. rewrite !nth_map_seq by lia. unfold goal. field. lra. }
        eapply within_comp; [reflexivity|symmetry; exact E|]. apply class_total_within. intros i Hi. rewrite nth_map_seq by lia. apply base_within. lia. }
      pose proof (Qnat_pos n n_pos') as NP. assert (KP : 0 < Qnat n / qsum rawl) by (apply Qlt_shift_div_l; lra). split; intro H.
      - assert (CP : 0 < class_total l base c) by (apply (within_pos _ _ _ (Qmult_lt_0_compat _ _ H KP) CW)). specialize (T1 CP). rewrite Hl in T1.
        assert (KN : 0 < Qnat k). { apply Qnat_pos. rewrite Ek. pose proof (proj2 (zunique_in c l) Hc) as I. destruct (zunique l); [contradiction|cbn; lia]. }
        replace (12 * n + 19)%nat with (4 * n + 4 + (8 * n + 15))%nat by lia. apply (within_trans _ _ _ (qsum base / Qnat k)); [apply Qle_shift_div_l; lra|exact T1|].
        apply (within_comp u53 _ ((1 / Qnat k) * qsum base) ((1 / Qnat k) * Qnat n)); [field; lra|field; lra|]. apply within_scale; [apply Qle_shift_div_l; lra|exact base_sum].
      - apply T2. assert (CN : 0 <= class_total l rawl c) by (apply class_total_nonneg; [unfold rawl; now rewrite map_length, seq_length|intros x Hx; apply in_map_iff in Hx; destruct Hx as (i & <- & _); apply raw_nonneg]).
        assert (E : class_total l rawl c * (Qnat n / qsum rawl) == 0) by (assert (E0 : class_total l rawl c == 0) by lra; rewrite E0; ring). rewrite (within_zero _ _ _ E CW). lra.
    Qed.
  End Pos.
  Lemma final_raises labels : (forall l, labels = Some l -> length l = n) -> qsum rawl <= 0 -> compute_final_weights_f sumf u lw attr vert labels = Raise ValueError.
  Proof. intros Hl H. rewrite final_shape by exact Hl. destruct (Qleb_spec mean 0) as [|X]; [reflexivity|]. apply mean_pos_iff in X. lra. Qed.
  Lemma newest_gives_pos : 0 < x0 (n - 1) -> (forall v, vert = Some v -> 0 < nth (n - 1) v 0) -> 0 < qsum rawl.
  Proof.
    intros H1 H2. destruct td_facts as (_ & T & _). pose proof n_pos' as NP. assert (P : 0 < fin_raw (n - 1)).
    { unfold fin_raw. rewrite T. fold (x0 (n - 1)). destruct vert as [v|]; [specialize (H2 v eq_refl); apply Qmult_lt_0_compat; lra|lra]. }
    assert (L : fin_raw (n - 1) <= qsum rawl); [|lra]. apply qsum_elem_le; [intros y Hy; apply in_map_iff in Hy; destruct Hy as (i & <- & _); apply raw_nonneg|]. apply (in_map fin_raw), in_seq. lia.
  Qed.
End FinalF.
