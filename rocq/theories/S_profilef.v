(** S_profilef.v -- specification vocabulary for volume profiles in float arithmetic. *)
From Verif Require Import Base M_float S_float.
Open Scope Q_scope.

(** Volume of the next (at most) two levels above position [hi], below position [lo]; two levels are added in float64. *)
Definition next_up_f (v : nat -> Q) (n hi : nat) : Q :=
  if (S (S hi) <? n)%nat then r53 (v (S hi) + v (S (S hi))) else v (S hi).
Definition next_dn_f (v : nat -> Q) (lo : nat) : Q :=
  if (1 <? lo)%nat then r53 (v (lo - 1)%nat + v (lo - 2)%nat) else v (lo - 1)%nat.

(** Value-area search over positions 0..n-1 with a float64 running volume [c]: from the interval [lo, hi] the search ends in
    [a, b].  It stops when [c] reaches [thr] or when no level is left; otherwise it grows by two levels on the side whose next
    two levels hold more volume (both sides when equal; the other side when one side is used up). *)
Inductive value_area_f (v : nat -> Q) (n : nat) (thr : Q) : Q -> nat -> nat -> nat -> nat -> Prop :=
| vf_done c lo hi : thr <= c -> value_area_f v n thr c lo hi lo hi
| vf_all c hi : S hi = n -> value_area_f v n thr c 0 hi 0 hi
| vf_up c c' lo hi a b : c < thr -> (S hi < n)%nat -> (lo = 0%nat \/ next_dn_f v lo < next_up_f v n hi) ->
    c' == r53 (c + next_up_f v n hi) ->
    value_area_f v n thr c' lo (Nat.min (hi + 2) (n - 1)) a b -> value_area_f v n thr c lo hi a b
| vf_dn c c' lo hi a b : c < thr -> (0 < lo)%nat -> (S hi = n \/ next_up_f v n hi < next_dn_f v lo) ->
    c' == r53 (c + next_dn_f v lo) ->
    value_area_f v n thr c' (lo - 2) hi a b -> value_area_f v n thr c lo hi a b
| vf_both c c' lo hi a b : c < thr -> (0 < lo)%nat -> (S hi < n)%nat -> next_up_f v n hi == next_dn_f v lo ->
    c' == r53 (c + r53 (next_up_f v n hi + next_dn_f v lo)) ->
    value_area_f v n thr c' (lo - 2) (Nat.min (hi + 2) (n - 1)) a b -> value_area_f v n thr c lo hi a b.

(** Prices in ticks as float64 quotients, before they are rounded to integers. *)
Definition quots (tick : Q) (l : list Q) : list Q := map (fun p => r53 (p / tick)) l.

(** A row (poc, hva, lva, share) of the profile of the level volumes [f] over the levels L..H with value area [pct], when every
    level volume was rounded [k] times to float32: the POC holds the largest volume, the value area holds the requested share and
    [share] is the share above the POC, each up to the stated rounding errors. *)
Definition float_profile (f : Z -> Q) (L H : Z) (pct : Q) (k : nat) (span : Z -> Z -> Q) (poc hva lva : Z) (share : Q) : Prop :=
  let n := Z.to_nat (H + 1 - L) in
  (L <= lva <= poc)%Z /\ (poc <= hva <= H)%Z /\
  (forall l, (L <= l <= H)%Z -> (1 - u24) ^ Z.of_nat k * f l <= (1 + u24) ^ Z.of_nat k * f poc) /\
  (1 - u24) ^ Z.of_nat (n + k) * (1 - u53) ^ 2 * (pct / 100 * span L H) <=
    (1 + u53) ^ Z.of_nat (n + 1) * (1 + u24) ^ Z.of_nat k * span lva hva /\
  (1 - u24) ^ Z.of_nat (k + 1) * (1 - u53) ^ Z.of_nat (n + 1) * span (poc + 1)%Z H <= share * ((1 + u24) ^ Z.of_nat (n + k) * span L H) /\
  share * ((1 - u24) ^ Z.of_nat (n + k) * span L H) <= (1 + u24) ^ Z.of_nat (k + 1) * (1 + u53) ^ Z.of_nat (n + 1) * span (poc + 1)%Z H /\
  (span L H <= 0 -> share == 0).
