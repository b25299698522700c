(** S_store.v -- specification of the trade store: histories of saves. *)
From Verif Require Import Base M_logic M_store.
Open Scope Z_scope.

(** One call of save_h5: month key argument, frame, and the integrity fields of the object. *)
Record hop := mkH { h_month : option key; h_frame : list srow; h_ok : option bool; h_missing : Q; h_disc : list sdisc }.

(** The month a save writes to. *)
Definition month_of (mkey : Z -> key) (o : hop) : key :=
  match h_month o with
  | Some k => k
  | None => match h_frame o with [] => [] | r :: _ => mkey (w_ts r) end
  end.

(** [o] is the last save of [h] to month [k]; no save of [h] went to [k]. *)
Definition last_save (mkey : Z -> key) (h : list hop) (k : key) (o : hop) : Prop :=
  exists h1 h2, h = h1 ++ o :: h2 /\ month_of mkey o = k /\ forall o', In o' h2 -> month_of mkey o' <> k.
Definition never_saved (mkey : Z -> key) (h : list hop) (k : key) : Prop := forall o, In o h -> month_of mkey o <> k.

(** The file after a history of overwriting saves, from an empty file. *)
Definition after (mkey : Z -> key) (h : list hop) : store :=
  fold_left (fun st o => snd (save_h5 mkey false (h_month o) true (h_frame o) (h_ok o) (h_missing o) (h_disc o) st)) h empty_store.

(** Rows in the closed (possibly open-ended) time range. *)
Definition in_range (s e : option Z) (t : Z) : Prop :=
  (forall a, s = Some a -> a <= t) /\ (forall b, e = Some b -> t <= b).
Definition in_rangeb (s e : option Z) (t : Z) : bool :=
  (match s with None => true | Some a => a <=? t end) && (match e with None => true | Some b => t <=? b end).
Lemma in_rangeb_spec s e t : in_rangeb s e t = true <-> in_range s e t.
Proof.
  unfold in_rangeb, in_range. destruct s as [a|], e as [b|]; rewrite ?andb_true_iff, ?Z.leb_le; simpl; split; intros [A B]; split; intros; try congruence; auto;
  match goal with H : Some _ = Some _ |- _ => injection H as <-; auto end.
Qed.

(** A sort by time: a permutation in non-decreasing order. *)
Definition sorts_by_time (f : list srow -> list srow) : Prop :=
  forall l, Permutation l (f l) /\ ascZ (map w_ts (f l)).

(** The metadata written by [o] covers the frame of [o]: always the case when [data_ok] is set. *)
Definition exact_meta (o : hop) : Prop :=
  match h_ok o with
  | Some _ => True
  | None => match h_frame o with [] => True | r :: _ => f64 (w_ts r) <= w_ts r /\ w_ts (last (h_frame o) r) <= f64 (w_ts (last (h_frame o) r)) end
  end.

(** Lexicographic order of (year, month) pairs. *)
Definition ym_le (a b : Z * Z) : Prop := fst a < fst b \/ (fst a = fst b /\ snd a <= snd b).
