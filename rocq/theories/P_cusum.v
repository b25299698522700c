(** P_cusum.v -- the two-sided CUSUM recursion, generically. *)
From Verif Require Import Base S_logic.
Open Scope Q_scope.

(** [s] is the largest sum of a run of consecutive terms ending just before [m] and
    starting after [u] (the empty run counts 0). *)
Definition is_maxrun (r : nat -> Q) (u m : nat) (s : Q) : Prop :=
  (exists j, (u < j <= m)%nat /\ s == ssum r j m) /\
  (forall j, (u < j <= m)%nat -> ssum r j m <= s).
Definition is_minrun (r : nat -> Q) (u m : nat) (s : Q) : Prop :=
  (exists j, (u < j <= m)%nat /\ s == ssum r j m) /\
  (forall j, (u < j <= m)%nat -> s <= ssum r j m).

Lemma maxrun_reset r m : is_maxrun r m (S m) 0.
Proof.
  split.
  - exists (S m). split; [lia|]. rewrite ssum_nil; lra || lia.
  - intros j Hj. assert (j = S m) by lia. subst. rewrite ssum_nil; lra || lia.
Qed.
Lemma minrun_reset r m : is_minrun r m (S m) 0.
Proof.
  split.
  - exists (S m). split; [lia|]. rewrite ssum_nil; lra || lia.
  - intros j Hj. assert (j = S m) by lia. subst. rewrite ssum_nil; lra || lia.
Qed.

Lemma maxrun_step r u m s : (u < m)%nat -> is_maxrun r u m s ->
  is_maxrun r u (S m) (pmax 0 (s + r m)).
Proof.
  intros Hum [[j [Hj Es]] Hmax]. split.
  - destruct (pmax_case 0 (s + r m)) as [E|E]; rewrite E.
    + exists (S m). split; [lia|]. rewrite ssum_nil; lra || lia.
    + exists j. split; [lia|]. rewrite ssum_snoc by lia. lra.
  - intros i Hi. destruct (Nat.eq_dec i (S m)) as [->|Hne].
    + rewrite ssum_nil by lia. apply pmax_l.
    + rewrite ssum_snoc by lia. specialize (Hmax i ltac:(lia)).
      pose proof (pmax_r 0 (s + r m)). lra.
Qed.
Lemma minrun_step r u m s : (u < m)%nat -> is_minrun r u m s ->
  is_minrun r u (S m) (pmin 0 (s + r m)).
Proof.
  intros Hum [[j [Hj Es]] Hmax]. split.
  - destruct (pmin_case 0 (s + r m)) as [E|E]; rewrite E.
    + exists (S m). split; [lia|]. rewrite ssum_nil; lra || lia.
    + exists j. split; [lia|]. rewrite ssum_snoc by lia. lra.
  - intros i Hi. destruct (Nat.eq_dec i (S m)) as [->|Hne].
    + rewrite ssum_nil by lia. apply pmin_l.
    + rewrite ssum_snoc by lia. specialize (Hmax i ltac:(lia)).
      pose proof (pmin_r 0 (s + r m)). lra.
Qed.

(** last_before *)
Lemma last_before_app l x d i :
  last_before (l ++ [x]) d i =
  if (x <? i)%nat then Nat.max (last_before l d i) x else last_before l d i.
Proof. unfold last_before. rewrite fold_left_app. reflexivity. Qed.

Lemma last_before_ge l d i : (d <= last_before l d i)%nat.
Proof.
  unfold last_before. revert d. induction l as [|x l IH]; simpl; intro d; [lia|].
  destruct (x <? i)%nat; [|apply IH]. etransitivity; [|apply IH]. lia.
Qed.

Lemma last_before_lt l d i : (d < i)%nat -> (last_before l d i < i)%nat.
Proof.
  unfold last_before. revert d. induction l as [|x l IH]; simpl; intros d H; [lia|].
  destruct (Nat.ltb_spec x i); apply IH; lia.
Qed.

(** Elements all below i: last_before does not depend on the bound. *)
Lemma last_before_ext l d i i' :
  (forall x, In x l -> x < i)%nat -> (forall x, In x l -> x < i')%nat ->
  last_before l d i = last_before l d i'.
Proof.
  unfold last_before. revert d. induction l as [|x l IH]; simpl; intros d H H'; auto.
  destruct (Nat.ltb_spec x i), (Nat.ltb_spec x i').
  - apply IH; auto.
  - specialize (H' x (or_introl eq_refl)). lia.
  - specialize (H x (or_introl eq_refl)). lia.
  - apply IH; auto.
Qed.

Lemma last_before_char l d i : (d < i)%nat ->
  (last_before l d i = d \/ In (last_before l d i) l) /\
  (forall x, In x l -> (x < i)%nat -> (x <= last_before l d i)%nat).
Proof.
  induction l as [|x l IH] using rev_ind; intro Hd.
  - split; [now left|]. intros x [].
  - destruct (IH Hd) as [IH1 IH2]. rewrite last_before_app.
    destruct (Nat.ltb_spec x i) as [Hx|Hx].
    + split.
      * destruct (Nat.max_spec (last_before l d i) x) as [[_ ->]|[_ ->]].
        -- right. apply in_or_app. right. now left.
        -- destruct IH1 as [E|E]; [now left|right; apply in_or_app; now left].
      * intros y Hy Hyi. apply in_app_or in Hy. destruct Hy as [Hy|[->|[]]].
        -- specialize (IH2 y Hy Hyi). lia.
        -- lia.
    + split.
      * destruct IH1 as [E|E]; [now left|right; apply in_or_app; now left].
      * intros y Hy Hyi. apply in_app_or in Hy. destruct Hy as [Hy|[->|[]]]; [auto|lia].
Qed.

Section Generic.
  Variable r : nat -> Q.
  (** decision taken at step i from the two updated sums:
      Some true = report and reset the positive sum, Some false = report and reset
      the negative sum, None = no report *)
  Variable dec : nat -> Q -> Q -> option bool.

  Record gst := mkG { g_idx : list nat; g_pos : Q; g_neg : Q }.
  Definition gstep (s : gst) (i : nat) : gst :=
    let p := pmax 0 (g_pos s + r i) in
    let q := pmin 0 (g_neg s + r i) in
    match dec i p q with
    | Some true => mkG (g_idx s ++ [i]) 0 q
    | Some false => mkG (g_idx s ++ [i]) p 0
    | None => mkG (g_idx s) p q
    end.

  Definition grun (init : list nat) (f n : nat) : gst :=
    fold_left gstep (seq (S f) n) (mkG init 0 0).

  (** all steps strictly between f and m have been taken *)
  Record ginv (init : list nat) (f m : nat) (s : gst) (ups dns : list nat) : Prop := {
    gi_up_rng : forall i, In i ups -> (f < i < m)%nat;
    gi_dn_rng : forall i, In i dns -> (f < i < m)%nat;
    gi_pos : is_maxrun r (last_before ups f m) m (g_pos s);
    gi_neg : is_minrun r (last_before dns f m) m (g_neg s);
    gi_dec : forall i, (f < i < m)%nat -> exists p q,
        is_maxrun r (last_before ups f i) (S i) p /\
        is_minrun r (last_before dns f i) (S i) q /\
        (In i ups <-> dec i p q = Some true) /\
        (In i dns <-> dec i p q = Some false);
    gi_idx : exists evs, g_idx s = init ++ evs /\ StronglySorted lt evs /\
        (forall i, In i evs <-> In i ups \/ In i dns)
  }.

  Lemma ssorted_snoc l x : StronglySorted lt l -> (forall y, In y l -> y < x)%nat ->
    StronglySorted lt (l ++ [x]).
  Proof.
    induction l as [|a l IH]; simpl; intros Hs Hx.
    - constructor; constructor.
    - inversion_clear Hs as [|? ? Hs' Ha]. constructor.
      + apply IH; auto.
      + apply Forall_app. split; auto.
  Qed.

  Lemma grun_inv init f n : exists ups dns,
    ginv init f (S f + n) (grun init f n) ups dns.
  Proof.
    induction n as [|n [ups [dns IH]]].
    - exists [], []. rewrite Nat.add_0_r. constructor; simpl; try tauto.
      + apply maxrun_reset.
      + apply minrun_reset.
      + intros i Hi. lia.
      + exists []. rewrite app_nil_r. repeat split; try constructor; simpl; tauto.
    - unfold grun in *. rewrite fold_left_seq_S.
      set (s := fold_left gstep (seq (S f) n) _) in *.
      set (m := (S f + n)%nat) in *. replace (S f + S n)%nat with (S m) by lia.
      destruct IH as [Hur Hdr Hp Hn Hdec [evs [Eidx [Hsort Hevs]]]].
      assert (Hfm : (f < m)%nat) by lia.
      pose proof (maxrun_step r _ m _ (last_before_lt ups f m Hfm) Hp) as Hp'.
      pose proof (minrun_step r _ m _ (last_before_lt dns f m Hfm) Hn) as Hn'.
      unfold gstep. set (p := pmax 0 (g_pos s + r m)) in *.
      set (q := pmin 0 (g_neg s + r m)) in *.
      assert (Hlbx : forall l, (forall i, In i l -> f < i < m)%nat -> forall i,
                 (m <= i)%nat -> last_before l f i = last_before l f m).
      { intros l Hl i Hi. apply last_before_ext; intros x Hx; specialize (Hl x Hx); lia. }
      assert (Hlbapp : forall l i, (i <= m)%nat -> last_before (l ++ [m]) f i = last_before l f i).
      { intros l i Hi. rewrite last_before_app. destruct (Nat.ltb_spec m i); [lia|reflexivity]. }
      assert (Hlbm : forall l, (forall i, In i l -> f < i < m)%nat ->
                  last_before (l ++ [m]) f (S m) = m).
      { intros l Hl. rewrite last_before_app. destruct (Nat.ltb_spec m (S m)); [|lia].
        rewrite (Hlbx l Hl) by lia.
        pose proof (last_before_lt l f m Hfm). lia. }
      assert (Hevs_lt : forall y, In y evs -> (y < m)%nat).
      { intros y Hy. apply Hevs in Hy. destruct Hy as [Hy|Hy].
        - apply Hur in Hy. lia. - apply Hdr in Hy. lia. }
      assert (Hnu : ~ In m ups) by (intro H; apply Hur in H; lia).
      assert (Hnd : ~ In m dns) by (intro H; apply Hdr in H; lia).
      destruct (dec m p q) as [[|]|] eqn:Ed.
      + exists (ups ++ [m]), dns. constructor; simpl.
        * intros i Hi. apply in_app_or in Hi. destruct Hi as [Hi|[<-|[]]]; [|lia].
          apply Hur in Hi. lia.
        * intros i Hi. apply Hdr in Hi. lia.
        * rewrite Hlbm by auto. apply maxrun_reset.
        * rewrite Hlbx by (auto; lia). exact Hn'.
        * intros i Hi. destruct (Nat.eq_dec i m) as [->|Hne].
          -- exists p, q. rewrite Hlbapp by lia. repeat split; auto.
             ++ apply Hp'. ++ apply Hp'. ++ apply Hn'. ++ apply Hn'.
             ++ intros _. apply in_or_app. right. now left.
             ++ intro H; now apply Hnd in H.
             ++ congruence.
          -- destruct (Hdec i ltac:(lia)) as [p' [q' [H1 [H2 [H3 H4]]]]].
             exists p', q'. rewrite Hlbapp by lia. repeat split; try apply H1; try apply H2; try apply H4.
             ++ intro H. apply H3. apply in_app_or in H. destruct H as [H|[<-|[]]]; [auto|congruence].
             ++ intro H. apply in_or_app. left. now apply H3.
        * exists (evs ++ [m]). rewrite Eidx, app_assoc. repeat split.
          -- apply ssorted_snoc; auto.
          -- intro H. apply in_app_or in H. destruct H as [H|[<-|[]]].
             ++ apply Hevs in H. destruct H; [left; apply in_or_app; now left|now right].
             ++ left. apply in_or_app. right. now left.
          -- intros [H|H]; apply in_or_app.
             ++ apply in_app_or in H. destruct H as [H|H]; [left; apply Hevs; now left|now right].
             ++ left. apply Hevs. now right.
      + exists ups, (dns ++ [m]). constructor; simpl.
        * intros i Hi. apply Hur in Hi. lia.
        * intros i Hi. apply in_app_or in Hi. destruct Hi as [Hi|[<-|[]]]; [|lia].
          apply Hdr in Hi. lia.
        * rewrite Hlbx by (auto; lia). exact Hp'.
        * rewrite Hlbm by auto. apply minrun_reset.
        * intros i Hi. destruct (Nat.eq_dec i m) as [->|Hne].
          -- exists p, q. rewrite Hlbapp by lia. repeat split; auto.
             ++ apply Hp'. ++ apply Hp'. ++ apply Hn'. ++ apply Hn'.
             ++ intro H; now apply Hnu in H.
             ++ congruence.
             ++ intros _. apply in_or_app. right. now left.
          -- destruct (Hdec i ltac:(lia)) as [p' [q' [H1 [H2 [H3 H4]]]]].
             exists p', q'. rewrite Hlbapp by lia. repeat split; try apply H1; try apply H2; try apply H3.
             ++ intro H. apply H4. apply in_app_or in H. destruct H as [H|[<-|[]]]; [auto|congruence].
             ++ intro H. apply in_or_app. left. now apply H4.
        * exists (evs ++ [m]). rewrite Eidx, app_assoc. repeat split.
          -- apply ssorted_snoc; auto.
          -- intro H. apply in_app_or in H. destruct H as [H|[<-|[]]].
             ++ apply Hevs in H. destruct H; [now left|right; apply in_or_app; now left].
             ++ right. apply in_or_app. right. now left.
          -- intros [H|H]; apply in_or_app.
             ++ left. apply Hevs. now left.
             ++ apply in_app_or in H. destruct H as [H|H]; [left; apply Hevs; now right|now right].
      + exists ups, dns. constructor; simpl.
        * intros i Hi. apply Hur in Hi. lia.
        * intros i Hi. apply Hdr in Hi. lia.
        * rewrite Hlbx by (auto; lia). exact Hp'.
        * rewrite Hlbx by (auto; lia). exact Hn'.
        * intros i Hi. destruct (Nat.eq_dec i m) as [->|Hne].
          -- exists p, q. rewrite Ed. split; [exact Hp'|]. split; [exact Hn'|].
             split; split; intro H; try discriminate; exfalso; auto.
          -- apply Hdec. lia.
        * exists evs. auto.
  Qed.
End Generic.

(** Thresholding a maximal run is the existence of a run over the threshold. *)
Lemma maxrun_ge r u i s lam : 0 < lam -> is_maxrun r u (S i) s ->
  (lam <= s <-> run_ending r u i (fun x => lam <= x)).
Proof.
  intros Hl [[j [Hj Es]] Hmax]. split.
  - intro H. exists j. split; [|lra].
    destruct (Nat.eq_dec j (S i)) as [->|]; [|lia].
    rewrite ssum_nil in Es by lia. lra.
  - intros [k [Hk H]]. specialize (Hmax k ltac:(lia)). lra.
Qed.
Lemma maxrun_gt r u i s lam : 0 <= lam -> is_maxrun r u (S i) s ->
  (lam < s <-> run_ending r u i (fun x => lam < x)).
Proof.
  intros Hl [[j [Hj Es]] Hmax]. split.
  - intro H. exists j. split; [|lra].
    destruct (Nat.eq_dec j (S i)) as [->|]; [|lia].
    rewrite ssum_nil in Es by lia. lra.
  - intros [k [Hk H]]. specialize (Hmax k ltac:(lia)). lra.
Qed.
Lemma minrun_le r u i s lam : 0 < lam -> is_minrun r u (S i) s ->
  (s <= - lam <-> run_ending r u i (fun x => x <= - lam)).
Proof.
  intros Hl [[j [Hj Es]] Hmin]. split.
  - intro H. exists j. split; [|lra].
    destruct (Nat.eq_dec j (S i)) as [->|]; [|lia].
    rewrite ssum_nil in Es by lia. lra.
  - intros [k [Hk H]]. specialize (Hmin k ltac:(lia)). lra.
Qed.
Lemma minrun_lt r u i s lam : 0 <= lam -> is_minrun r u (S i) s ->
  (s < - lam <-> run_ending r u i (fun x => x < - lam)).
Proof.
  intros Hl [[j [Hj Es]] Hmin]. split.
  - intro H. exists j. split; [|lra].
    destruct (Nat.eq_dec j (S i)) as [->|]; [|lia].
    rewrite ssum_nil in Es by lia. lra.
  - intros [k [Hk H]]. specialize (Hmin k ltac:(lia)). lra.
Qed.
