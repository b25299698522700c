(** P_readcut.v -- cutting a range out of bars before and after resampling. *)
From Verif Require Import Base M_tbio M_float M_float16.
Open Scope Z_scope.

Lemma filter_comm {A} (f g : A -> bool) l : filter f (filter g l) = filter g (filter f l).
Proof. induction l as [|x l IH]; [reflexivity|]. cbn [filter]. destruct (f x) eqn:E, (g x) eqn:F; cbn [filter]; rewrite ?E, ?F, IH; reflexivity. Qed.
Lemma filter_map_in {A B} (f : A -> B) (p : B -> bool) l : filter p (map f l) = map f (filter (fun x => p (f x)) l).
Proof. induction l as [|x l IH]; [reflexivity|]. cbn [map filter]. rewrite IH. now destruct (p (f x)). Qed.
Lemma filter_true_in {A} (f : A -> bool) l : (forall x, In x l -> f x = true) -> filter f l = l.
Proof. induction l as [|x l IH]; intro H; [reflexivity|]. cbn [filter]. rewrite (H x (or_introl eq_refl)), IH; [reflexivity|]. intros y I. apply H. now right. Qed.
Lemma uniq_cut (P : Z -> bool) l : uniq (filter P l) = filter P (uniq l).
Proof.
  induction l as [|k l IH]; [reflexivity|]. cbn [uniq filter]. rewrite (filter_comm P). destruct (P k) eqn:E; [cbn [uniq]; now rewrite IH|].
  rewrite IH. symmetry. apply filter_true_in. intros x I. apply filter_In in I. destruct (Z.eqb_spec x k) as [->|]; [|reflexivity]. destruct I; congruence.
Qed.
Lemma group_cut tf (P : Z -> bool) df k : P k = true -> group tf (filter (fun b => P (floor_to tf (b_ts b))) df) k = group tf df k.
Proof.
  intro E. unfold group. induction df as [|b df IH]; [reflexivity|]. cbn [filter]. destruct (P (floor_to tf (b_ts b))) eqn:F; cbn [filter].
  - now rewrite IH.
  - rewrite IH. destruct (Z.eqb_spec (floor_to tf (b_ts b)) k) as [K|]; [|reflexivity]. congruence.
Qed.
Section Rows.
  Variable A : Z -> list bar -> bar.
  Hypothesis L : forall k g, b_ts (A k g) = k.
  (** The rows of periods, by whatever aggregation (finmlkit/bar/io.py L916-950). *)
  Definition rows (tf : Z) (df : list bar) : list bar := filter has_open (map (fun k => A k (group tf df k)) (uniq (map (fun b => floor_to tf (b_ts b)) df))).
  Lemma rows_cut tf (P : Z -> bool) df : rows tf (filter (fun b => P (floor_to tf (b_ts b))) df) = filter (fun r => P (b_ts r)) (rows tf df).
  Proof.
    unfold rows. rewrite (filter_comm (fun r => P (b_ts r))). f_equal. rewrite filter_map_in.
    rewrite <- (filter_map_in (fun b => floor_to tf (b_ts b)) P), uniq_cut. rewrite (filter_ext (fun x => P (b_ts (A x (group tf df x)))) P) by (intro; now rewrite L).
    apply map_ext_in. intros k I. apply filter_In in I. now rewrite (group_cut tf P df k (proj2 I)).
  Qed.
End Rows.
Lemma resample_cut sort tf (P : Z -> bool) df : resample sort tf (filter (fun b => P (floor_to tf (b_ts b))) df) = filter (fun r => P (b_ts r)) (resample sort tf df).
Proof. exact (rows_cut (agg sort) (fun _ _ => eq_refl) tf P df). Qed.
Lemma resample_f_cut sort tf (P : Z -> bool) df : resample_f sort tf (filter (fun b => P (floor_to tf (b_ts b))) df) = filter (fun r => P (b_ts r)) (resample_f sort tf df).
Proof. exact (rows_cut (agg_f sort) (fun _ _ => eq_refl) tf P df). Qed.
(** Whole periods: a bar is inside iff its period is. *)
Lemma floor_ge tf s t : 0 < tf -> (tf | s) -> (s <=? floor_to tf t) = (s <=? t).
Proof.
  intros P [q ->]. unfold floor_to. assert (K : q <= t / tf <-> q * tf <= t). { split; intro H; [pose proof (Z.mul_div_le t tf P); nia|apply Z.div_le_lower_bound; lia]. }
  destruct (Z.leb_spec (q * tf) (t / tf * tf)), (Z.leb_spec (q * tf) t); try reflexivity; exfalso; nia.
Qed.
Lemma floor_lt tf m t : 0 < tf -> (tf | m) -> (floor_to tf t <? m) = (t <? m).
Proof. intros P D. rewrite !Z.ltb_antisym. now rewrite (floor_ge tf m t P D). Qed.
