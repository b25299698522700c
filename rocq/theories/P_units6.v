(** P_units6.v -- running extremes under a change of units. *)
From Verif Require Import Base M_bars S_units S_unitbars P_units P_units2.
Open Scope Q_scope.

Lemma pmin_spec x y : pmin x y == x /\ x <= y \/ pmin x y == y /\ y < x.
Proof. unfold pmin. destruct (Qltb_spec y x); [right|left]; split; lra. Qed.
Lemma pmax_spec x y : pmax x y == x /\ y <= x \/ pmax x y == y /\ x < y.
Proof. unfold pmax. destruct (Qltb_spec x y); [right|left]; split; lra. Qed.
(** The extreme of the start value [B] and the values seen so far, in two units. *)
Definition Rmin (c B x y : Q) : Prop := x == B /\ y == B \/ exists m m', sc c m m' /\ x == pmin B m /\ y == pmin B m'.
Definition Rmax (c B x y : Q) : Prop := x == B /\ y == B \/ exists m m', sc c m m' /\ x == pmax B m /\ y == pmax B m'.
Lemma pmin_comp x y x' y' : x == x' -> y == y' -> pmin x y == pmin x' y'.
Proof. intros. destruct (pmin_spec x y) as [[-> ?]|[-> ?]], (pmin_spec x' y') as [[-> ?]|[-> ?]]; lra. Qed.
Lemma pmax_comp x y x' y' : x == x' -> y == y' -> pmax x y == pmax x' y'.
Proof. intros. destruct (pmax_spec x y) as [[-> ?]|[-> ?]], (pmax_spec x' y') as [[-> ?]|[-> ?]]; lra. Qed.
Lemma pmin_assoc B m v : pmin (pmin B m) v == pmin B (pmin m v).
Proof.
  destruct (pmin_spec (pmin B m) v) as [[-> ?]|[-> ?]], (pmin_spec B m) as [[? ?]|[? ?]], (pmin_spec B (pmin m v)) as [[-> ?]|[-> ?]], (pmin_spec m v) as [[? ?]|[? ?]]; lra.
Qed.
Lemma pmax_assoc B m v : pmax (pmax B m) v == pmax B (pmax m v).
Proof.
  destruct (pmax_spec (pmax B m) v) as [[-> ?]|[-> ?]], (pmax_spec B m) as [[? ?]|[? ?]], (pmax_spec B (pmax m v)) as [[-> ?]|[-> ?]], (pmax_spec m v) as [[? ?]|[? ?]]; lra.
Qed.
Lemma Rmin_step c B x y v v' : 0 < c -> Rmin c B x y -> sc c v v' -> Rmin c B (pmin x v) (pmin y v').
Proof.
  intros Hc [[E1 E2]|(m & m' & R & E1 & E2)] Hv; right.
  - exists v, v'. split; auto. split; now apply pmin_comp.
  - exists (pmin m v), (pmin m' v'). split; [now apply sc_pmin|]. split.
    + rewrite (pmin_comp x v _ v E1 (Qeq_refl v)). apply pmin_assoc.
    + rewrite (pmin_comp y v' _ v' E2 (Qeq_refl v')). apply pmin_assoc.
Qed.
Lemma Rmax_step c B x y v v' : 0 < c -> Rmax c B x y -> sc c v v' -> Rmax c B (pmax x v) (pmax y v').
Proof.
  intros Hc [[E1 E2]|(m & m' & R & E1 & E2)] Hv; right.
  - exists v, v'. split; auto. split; now apply pmax_comp.
  - exists (pmax m v), (pmax m' v'). split; [now apply sc_pmax|]. split.
    + rewrite (pmax_comp x v _ v E1 (Qeq_refl v)). apply pmax_assoc.
    + rewrite (pmax_comp y v' _ v' E2 (Qeq_refl v')). apply pmax_assoc.
Qed.
Lemma Rmin_use c B x y : Rmin c B x y -> x < B -> y < B -> sc c x y.
Proof.
  intros [[E1 E2]|(m & m' & R & E1 & E2)] Hx Hy; [lra|].
  destruct (pmin_spec B m) as [[? ?]|[? ?]], (pmin_spec B m') as [[? ?]|[? ?]]; try lra.
  eapply sc_comp; [reflexivity| | |exact R]; lra.
Qed.
Lemma Rmax_use c B x y : Rmax c B x y -> B < x -> B < y -> sc c x y.
Proof.
  intros [[E1 E2]|(m & m' & R & E1 & E2)] Hx Hy; [lra|].
  destruct (pmax_spec B m) as [[? ?]|[? ?]], (pmax_spec B m') as [[? ?]|[? ?]]; try lra.
  eapply sc_comp; [reflexivity| | |exact R]; lra.
Qed.
Definition eunits (c d : Q) (x y : dstate) : Prop :=
  sc d (d_cv x) (d_cv y) /\ sc (c * d) (d_cd x) (d_cd y) /\
  Rmin d (inject_Z big) (d_vmin x) (d_vmin y) /\ Rmax d (inject_Z (- big)) (d_vmax x) (d_vmax y) /\
  Rmin (c * d) (inject_Z big) (d_dmin x) (d_dmin y) /\ Rmax (c * d) (inject_Z (- big)) (d_dmax x) (d_dmax y).
Lemma e_step_units c d p p' v v' sides x y j : 0 < c -> 0 < d -> scl c p p' -> scl d v v' -> eunits c d x y ->
  eunits c d (d_step p v sides x j) (d_step p' v' sides y j).
Proof.
  intros Hc Hd Hp Hv (E1 & E2 & E3 & E4 & E5 & E6). assert (Hm : 0 < c * d) by nra.
  pose proof (scl_zget d v v' j Hv) as Zv. assert (Zd : sc (c * d) (zget 0 p j * zget 0 v j) (zget 0 p' j * zget 0 v' j)) by (apply sc_mult; auto; now apply scl_zget).
  unfold d_step. cbv zeta.
  destruct (negb (zget 0%Z sides j =? d_prev x)%Z), (negb (zget 0%Z sides j =? d_prev y)%Z);
    (destruct (zget 0%Z sides j =? 1)%Z; [|destruct (zget 0%Z sides j =? -1)%Z]); unfold eunits; cbn [d_cv d_cd d_vmin d_vmax d_dmin d_dmax];
    repeat split; auto; try (apply Rmin_step; auto); try (apply Rmax_step; auto); try (now apply sc_plus); now apply sc_minus.
Qed.
Lemma extremes_units c d p p' v v' sides closes : 0 < c -> 0 < d -> scl c p p' -> scl d v v' ->
  Forall2 (fun f g =>
    Rmin d (inject_Z big) (f_cv_min f) (f_cv_min g) /\ Rmax d (inject_Z (- big)) (f_cv_max f) (f_cv_max g) /\
    Rmin (c * d) (inject_Z big) (f_cd_min f) (f_cd_min g) /\ Rmax (c * d) (inject_Z (- big)) (f_cd_max f) (f_cd_max g))
    (comp_bar_directional p v sides closes) (comp_bar_directional p' v' sides closes).
Proof.
  intros Hc Hd Hp Hv. unfold comp_bar_directional. apply F2_map_same. intros k _. unfold bar_directional. cbv zeta.
  set (s := nth k closes 0%Z). set (e := nth (S k) closes 0%Z). set (pr := if (s + 1 <? e)%Z then zget 0%Z sides (s + 1 - 1) else 0%Z).
  assert (D : eunits c d (fold_left (d_step p v sides) (zrange (s + 1) (e + 1)) (d_init pr)) (fold_left (d_step p' v' sides) (zrange (s + 1) (e + 1)) (d_init pr))).
  { apply fold_rel; [intros; now apply e_step_units|]. unfold eunits, d_init. cbn [d_cv d_cd d_vmin d_vmax d_dmin d_dmax].
    repeat split; try apply sc_0; left; split; reflexivity. }
  destruct D as (E1 & E2 & E3 & E4 & E5 & E6). cbn [f_cv_min f_cv_max f_cd_min f_cd_max]. auto.
Qed.
