(** T_inspect2.v -- what the inspector reports about a store made by saves (bar/io.py L101-198 over data_model.py). *)
From Verif Require Import Base M_logic M_store M_inspect S_store P_trades P_store T_store.
Open Scope Z_scope.

(** Spec: m is the least (greatest) of the values of the rows. *)
Definition least_z (f : srow -> Z) (rows : list srow) (m : Z) : Prop := (exists r, In r rows /\ f r = m) /\ forall r, In r rows -> m <= f r.
Definition greatest_z (f : srow -> Z) (rows : list srow) (m : Z) : Prop := (exists r, In r rows /\ f r = m) /\ forall r, In r rows -> f r <= m.
Definition least_q (f : srow -> Q) (rows : list srow) (m : Q) : Prop := ((exists r, In r rows /\ f r = m) /\ forall r, In r rows -> m <= f r)%Q.
Definition greatest_q (f : srow -> Q) (rows : list srow) (m : Q) : Prop := ((exists r, In r rows /\ f r = m) /\ forall r, In r rows -> f r <= m)%Q.

Lemma zmin_spec f r rows : least_z f (r :: rows) (zmin (f r) (map f rows)).
Proof.
  unfold least_z, zmin. revert r. induction rows as [|x rows IH]; intro r; cbn [map fold_left].
  - split; [exists r; split; [now left|reflexivity]|]. intros y [<-|[]]. lia.
  - destruct (Z.min_spec (f r) (f x)) as [[L ->]|[L ->]].
    + destruct (IH r) as [[y [Iy Ey]] B]. split; [exists y; split; [destruct Iy; [now left|right; now right]|exact Ey]|].
      intros z [<-|[<-|Iz]]; [apply B; now left| |apply B; now right]. specialize (B r (or_introl eq_refl)). lia.
    + destruct (IH x) as [[y [Iy Ey]] B]. split; [exists y; split; [right; exact Iy|exact Ey]|].
      intros z [<-|Iz]; [|now apply B]. specialize (B x (or_introl eq_refl)). lia.
Qed.
Lemma zmax_spec f r rows : greatest_z f (r :: rows) (zmax (f r) (map f rows)).
Proof.
  unfold greatest_z, zmax. revert r. induction rows as [|x rows IH]; intro r; cbn [map fold_left].
  - split; [exists r; split; [now left|reflexivity]|]. intros y [<-|[]]. lia.
  - destruct (Z.max_spec (f r) (f x)) as [[L ->]|[L ->]].
    + destruct (IH x) as [[y [Iy Ey]] B]. split; [exists y; split; [right; exact Iy|exact Ey]|].
      intros z [<-|Iz]; [|now apply B]. specialize (B x (or_introl eq_refl)). lia.
    + destruct (IH r) as [[y [Iy Ey]] B]. split; [exists y; split; [destruct Iy; [now left|right; now right]|exact Ey]|].
      intros z [<-|[<-|Iz]]; [apply B; now left| |apply B; now right]. specialize (B r (or_introl eq_refl)). lia.
Qed.
Lemma qmin_spec f r rows : least_q f (r :: rows) (qmin (f r) (map f rows)).
Proof.
  unfold least_q, qmin. revert r. induction rows as [|x rows IH]; intro r; cbn [map fold_left].
  - split; [exists r; split; [now left|reflexivity]|]. intros y [<-|[]]. lra.
  - destruct (Qltb_spec (f x) (f r)) as [L|L].
    + destruct (IH x) as [[y [Iy Ey]] B]. split; [exists y; split; [right; exact Iy|exact Ey]|].
      intros z [<-|Iz]; [|now apply B]. specialize (B x (or_introl eq_refl)). lra.
    + destruct (IH r) as [[y [Iy Ey]] B]. split; [exists y; split; [destruct Iy; [now left|right; now right]|exact Ey]|].
      intros z [<-|[<-|Iz]]; [apply B; now left| |apply B; now right]. specialize (B r (or_introl eq_refl)). lra.
Qed.
Lemma qmax_spec f r rows : greatest_q f (r :: rows) (qmax (f r) (map f rows)).
Proof.
  unfold greatest_q, qmax. revert r. induction rows as [|x rows IH]; intro r; cbn [map fold_left].
  - split; [exists r; split; [now left|reflexivity]|]. intros y [<-|[]]. lra.
  - destruct (Qltb_spec (f r) (f x)) as [L|L].
    + destruct (IH x) as [[y [Iy Ey]] B]. split; [exists y; split; [right; exact Iy|exact Ey]|].
      intros z [<-|Iz]; [|now apply B]. specialize (B x (or_introl eq_refl)). lra.
    + destruct (IH r) as [[y [Iy Ey]] B]. split; [exists y; split; [destruct Iy; [now left|right; now right]|exact Ey]|].
      intros z [<-|[<-|Iz]]; [apply B; now left| |apply B; now right]. specialize (B r (or_introl eq_refl)). lra.
Qed.

(** C169, statistics: the number of trades of the month and the least and greatest time, price and amount among them. *)
Theorem C169_statistics : forall st k s, get_statistics st k = Ok s ->
  exists rows, kget k (st_rows st) = Some rows /\ x_count s = Z.of_nat (length rows) /\
    least_z w_ts rows (x_first s) /\ greatest_z w_ts rows (x_last s) /\
    least_q w_px rows (fst (x_price s)) /\ greatest_q w_px rows (snd (x_price s)) /\
    least_q w_am rows (fst (x_amount s)) /\ greatest_q w_am rows (snd (x_amount s)).
Proof.
  intros st k s. unfold get_statistics. destruct (kget k (st_rows st)) as [[|r rows]|] eqn:E; try discriminate. intros [= <-]. exists (r :: rows).
  cbn [x_count x_first x_last x_price x_amount fst snd]. split; [reflexivity|]. split; [reflexivity|].
  split; [apply zmin_spec|]. split; [apply zmax_spec|]. split; [apply qmin_spec|]. split; [apply qmax_spec|]. split; [apply qmin_spec|apply qmax_spec].
Qed.
(** C169, months: after any saves, the three questions are answered for exactly the months listed, each month is listed
    once, and metadata and statistics report the same number of trades. *)
Theorem C169_months : forall mkey ops, (forall o, In o ops -> h_frame (op_h o) <> []) ->
  let st := after_any mkey ops in
  NoDup (store_keys st) /\
  (forall k, In k (store_keys st) -> exists m s d, store_metadata st k = Ok m /\ get_statistics st k = Ok s /\ store_integrity st k = Ok d /\ mt_count m = x_count s) /\
  (forall k, ~ In k (store_keys st) -> store_metadata st k = Raise KeyError /\ get_statistics st k = Raise KeyError /\ store_integrity st k = Raise KeyError).
Proof.
  intros mkey ops Hf st. destruct (any_consistent mkey ops Hf) as [C K]. fold st in C, K. split; [exact (proj1 C)|]. split.
  - intros k I. specialize (K k). unfold store_metadata, get_statistics, store_integrity, kmem.
    destruct (kget k (st_rows st)) as [rows|] eqn:E; [|exfalso; now apply (proj1 (kget_none k (st_rows st)) E)].
    destruct (kget k (st_meta st)) as [m|]; [|contradiction]. destruct K as [Ne Ec]. destruct rows as [|r rows]; [congruence|].
    do 3 eexists. split; [reflexivity|]. split; [reflexivity|]. split; [reflexivity|]. exact Ec.
  - intros k I. unfold store_metadata, get_statistics, store_integrity, kmem.
    destruct (kget k (st_rows st)) as [rows|] eqn:E; [|auto]. exfalso. apply I. apply kget_in in E. unfold store_keys. apply in_map_iff. exists (k, rows). auto.
Qed.
Lemma integ_after mkey h : (forall o, In o h -> h_frame o <> []) -> forall k,
  kget k (st_integ (after mkey h)) <> None -> exists o, In o h /\ month_of mkey o = k.
Proof.
  induction h as [|o h IH] using rev_ind; intros Hf k; [intro K; now destruct K|].
  assert (Hf' : forall o, In o h -> h_frame o <> []) by (intros; apply Hf, in_or_app; auto).
  destruct (after_inv mkey h Hf') as [C _]. rewrite after_snoc.
  destruct (save_ok mkey false true o (after mkey h) (Hf o ltac:(apply in_or_app; simpl; auto)) C) as [st' [E [_ [_ [_ G]]]]].
  rewrite E. cbn [snd]. rewrite G. destruct (key_eqb_spec (month_of mkey o) k) as [Ek|Ek].
  - intros _. exists o. split; [apply in_or_app; simpl; auto|exact Ek].
  - intro K. destruct (IH Hf' k K) as [o' [I E']]. exists o'. split; [apply in_or_app; auto|exact E'].
Qed.
(** C169, overwriting: when every month is written by overwriting saves of preprocessed, sorted data, the metadata
    agrees with the statistics in the range too, and the discontinuities are those of the last save of the month. *)
Theorem C169_agree : forall mkey h k o, (forall o, In o h -> h_frame o <> []) -> last_save mkey h k o ->
  ascZ (map w_ts (h_frame o)) -> h_ok o <> None ->
  exists m s, store_metadata (after mkey h) k = Ok m /\ get_statistics (after mkey h) k = Ok s /\
    mt_count m = x_count s /\ mt_first m = x_first s /\ mt_last m = x_last s /\ mt_ok m = h_ok o /\ mt_missing m = h_missing o /\
    store_integrity (after mkey h) k = Ok (match h_disc o with [] => None | d => Some d end).
Proof.
  intros mkey h k o Hf L A Ok_. destruct (after_inv mkey h Hf) as [C [R _]]. destruct (R k o L) as [R1 R2].
  assert (Io : In o h) by (destruct L as [h1 [h2 [-> _]]]; apply in_or_app; simpl; auto).
  assert (Fo := Hf o Io).
  assert (G : kget k (st_integ (after mkey h)) = match h_disc o with [] => None | d => Some d end).
  { clear R R1 R2 C A Io. revert L. induction h as [|o' h IH] using rev_ind; intro L; [destruct L as [[|] [? [L _]]]; discriminate|].
    assert (Hf' : forall o, In o h -> h_frame o <> []) by (intros; apply Hf, in_or_app; auto).
    destruct (after_inv mkey h Hf') as [C [R N]]. rewrite after_snoc.
    destruct (save_ok mkey false true o' (after mkey h) (Hf o' ltac:(apply in_or_app; simpl; auto)) C) as [st' [E [_ [_ [_ G]]]]].
    rewrite E. cbn [snd]. rewrite G. apply last_save_snoc in L. destruct L as [[Ek <-]|[Ne L]].
    - rewrite Ek, key_eqb_refl. destruct (h_disc o) as [|d ds]; [|reflexivity]. cbn [andb]. destruct (kmem k (st_rows (after mkey h))) eqn:M; [reflexivity|].
      destruct (kget k (st_integ (after mkey h))) as [d|] eqn:D; [|reflexivity]. exfalso.
      destruct (integ_after mkey h Hf' k ltac:(congruence)) as [o2 [I2 E2]]. destruct (last_save_ex mkey h k) as [[o3 L3]|N3]; [|now apply (N3 o2 I2)].
      destruct (R k o3 L3) as [R3 _]. unfold kmem in M. rewrite R3 in M. discriminate.
    - destruct (key_eqb_spec (month_of mkey o') k); [contradiction|]. now apply IH. }
  unfold store_metadata, get_statistics, store_integrity, kmem. rewrite R1, R2, G. unfold meta_of, meta_ts.
  destruct (h_frame o) as [|r rows] eqn:F; [congruence|]. destruct (h_ok o) as [ok|]; [|congruence].
  eexists. eexists. split; [reflexivity|]. split; [reflexivity|]. cbn [mt_count mt_first mt_last mt_ok mt_missing x_count x_first x_last].
  split; [reflexivity|]. split; [|split; [|auto]].
  - destruct (zmin_spec w_ts r rows) as [[y [Iy <-]] B]. apply Z.le_antisymm; [now apply (asc_bounds rows r y A Iy)|]. apply B. now left.
  - destruct (zmax_spec w_ts r rows) as [[y [Iy <-]] B]. apply Z.le_antisymm; [|now apply (asc_bounds rows r y A Iy)]. apply B.
    destruct (@exists_last _ (r :: rows) ltac:(discriminate)) as [l' [a E]]. rewrite E. rewrite last_last. apply in_or_app. simpl. auto.
Qed.
(** C169: "the range in the metadata is the range of the trades" is false after an append. *)
Theorem C169_range_refuted : exists k m s, store_metadata ex_appended k = Ok m /\ get_statistics ex_appended k = Ok s /\
  mt_count m = x_count s /\ mt_first m <> x_first s.
Proof. exists (fmt_month 2021 9). do 2 eexists. split; [vm_compute; reflexivity|]. split; [vm_compute; reflexivity|]. split; [reflexivity|discriminate]. Qed.
(** C169: "a month whose flag is True has no discontinuities on file" is false: appending a clean part replaces the
    flag and the missing percentage and keeps the discontinuities of the older part. *)
Definition ex_gap : hop := mkH (Some (fmt_month 2021 9)) [tr 10; tr 20] (Some false) 60 [mkSD 1 5 3].
Definition ex_clean : hop := mkH (Some (fmt_month 2021 9)) [tr 30; tr 40] (Some true) 0 [].
Theorem C169_flag_refuted : exists k m d, let st := after_any ex_key [mkOp false true ex_gap; mkOp false false ex_clean] in
  store_metadata st k = Ok m /\ mt_ok m = Some true /\ mt_missing m = 0%Q /\ store_integrity st k = Ok (Some d) /\ d <> [].
Proof. exists (fmt_month 2021 9). do 2 eexists. split; [vm_compute; reflexivity|]. split; [reflexivity|]. split; [reflexivity|]. split; [vm_compute; reflexivity|discriminate]. Qed.
Example C169_example :
  last_save ex_key [ex_gap; sv [tr 110; tr 120]; ex_clean] (fmt_month 2021 9) ex_clean /\ ascZ (map w_ts (h_frame ex_clean)) /\
  store_keys (after ex_key [ex_gap; sv [tr 110; tr 120]; ex_clean]) = [fmt_month 2021 10; fmt_month 2021 9] /\
  store_integrity (after ex_key [ex_gap; sv [tr 110; tr 120]; ex_clean]) (fmt_month 2021 9) = Ok None /\
  store_integrity (after ex_key [ex_gap; sv [tr 110; tr 120]]) (fmt_month 2021 9) = Ok (Some [mkSD 1 5 3]) /\
  get_statistics (after ex_key [ex_gap; sv [mkS 110 3 1 None; mkS 120 2 5 None]]) (fmt_month 2021 10) = Ok (mkStats 2 110 120 (2%Q, 3%Q) (1%Q, 5%Q)) /\
  store_metadata (after ex_key [ex_gap; sv [tr 110; tr 120]]) (fmt_month 2021 8) = Raise KeyError.
Proof.
  split; [exists [ex_gap; sv [tr 110; tr 120]], []; split; [reflexivity|]; split; [reflexivity|intros ? []]|].
  split; [apply check_o_spec; reflexivity|]. repeat split; vm_compute; reflexivity.
Qed.

Print Assumptions C169_statistics.
Print Assumptions C169_months.
Print Assumptions C169_agree.
Print Assumptions C169_range_refuted.
Print Assumptions C169_flag_refuted.
