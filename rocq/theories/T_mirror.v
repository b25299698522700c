(** T_mirror.v -- bars and footprints with buyers and sellers exchanged, and upside down (C172). *)
From Verif Require Import Base M_bars M_footprint S_units S_mirror P_mirror P_mirror2.
Open Scope Q_scope.

(* ================================================================== *)
(** * C172  Exchanging buyers and sellers exchanges the two columns *)

Lemma both_one {A} (R : A -> A -> Prop) x y a b : both (Forall2 R) x y -> x = Ok [a] -> y = Ok [b] -> R a b.
Proof. intros H -> ->. cbn [both] in H. inversion H; subst. assumption. Qed.

(** Directional features: whatever the prices, volumes and bar ends. *)
Theorem C172_directional : forall (prices vols : list Q) (sides closes : list Z),
  Forall2 dir_swapped (comp_bar_directional prices vols sides closes)
                      (comp_bar_directional prices vols (flipped sides) closes).
Proof.
  intros. unfold comp_bar_directional. induction (seq 0 (length closes - 1)) as [|k l IH]; cbn [map]; constructor; [apply bar_directional_flip|exact IH].
Qed.
Example C172_directional_example :
  let a := comp_bar_directional [10; 11; 12; 11; 10; 12] [1; 2; 9; 1; 7; 3] [1; 1; -1; -1; 1; -1]%Z [-1; 3; 5]%Z in
  let b := comp_bar_directional [10; 11; 12; 11; 10; 12] [1; 2; 9; 1; 7; 3] (flipped [1; 1; -1; -1; 1; -1]%Z) [-1; 3; 5]%Z in
  Forall2 dir_swapped a b /\ map f_ticks_buy a = [2; 1]%Z /\ map f_ticks_sell b = [2; 1]%Z /\
  map f_cv_max a = [3; 7] /\ map f_cv_min b = [-3; -7].
Proof. split; [apply C172_directional|vm_compute; auto]. Qed.

(** Footprints: volumes and tick counts of the two sides change places, the levels, the point of control
    and the concentration stay. *)
Theorem C172_sides : forall (prices amounts : list Q) (closes sides : list Z) (tick : Q) (lows highs : list Q) (mult : Q),
  both (Forall2 fp_swapped) (comp_bar_footprints prices amounts closes sides tick lows highs mult)
       (comp_bar_footprints prices amounts closes (flipped sides) tick lows highs mult).
Proof. intros. apply footprints_flip. Qed.
Definition one_of (r : result (list footprint)) : footprint :=
  match r with Ok (a :: _) => a | _ => mkFp [] [] [] [] [] [] [] 0 0 0 0 0 0 end.
Example C172_sides_example :
  let p := [10; 11; 12; 11; 10; 12] in let am := [1; 2; 9; 1; 7; 3] in let s := [1; 1; 1; -1; -1; -1]%Z in
  let x := comp_bar_footprints p am [-1; 5]%Z s 1 [10] [12] 2 in
  let y := comp_bar_footprints p am [-1; 5]%Z (flipped s) 1 [10] [12] 2 in
  x = Ok [one_of x] /\ y = Ok [one_of y] /\ fp_swapped (one_of x) (one_of y) /\
  fp_bv (one_of x) = [1; 2; 9] /\ fp_sv (one_of x) = [7; 1; 3] /\ fp_sv (one_of y) = [1; 2; 9].
Proof.
  intros p am s x y. assert (X : x = Ok [one_of x]) by (vm_compute; reflexivity). assert (Y : y = Ok [one_of y]) by (vm_compute; reflexivity).
  split; [exact X|]. split; [exact Y|]. split; [|vm_compute; auto].
  exact (both_one fp_swapped x y _ _ (C172_sides p am [-1; 5]%Z s 1 [10] [12] 2) X Y).
Qed.

(** The imbalance flags are NOT exchanged: a level is compared with the level below it for buyers and with the
    level above it for sellers. *)
Theorem C172_flags_refuted : exists prices amounts sides a b,
  comp_bar_footprints prices amounts [-1; 5]%Z sides 1 [10] [12] 2 = Ok [a] /\
  comp_bar_footprints prices amounts [-1; 5]%Z (flipped sides) 1 [10] [12] 2 = Ok [b] /\
  fp_bi a = [false; false; true] /\ fp_si a = [true; false; false] /\ fp_run a = (-1)%Z /\
  fp_bi b = [false; false; false] /\ fp_si b = [false; false; false] /\ fp_run b = 0%Z.
Proof.
  exists [10; 11; 12; 11; 10; 12], [1; 2; 9; 1; 7; 3], [1; 1; 1; -1; -1; -1]%Z. eexists. eexists. vm_compute. auto 10.
Qed.

(** They are when the price scale is turned over as well, around a point of the tick grid: then level [l] becomes
    level [c - l], buy imbalances become sell imbalances, and the longest run and the point of control are turned
    over as far as they are unique. *)
Theorem C172_upside_down : forall (prices amounts : list Q) (closes sides : list Z) (tick : Q) (lows highs : list Q) (mult : Q) (c : Z),
  Z.even c = true ->
  (forall j, In j closes -> (-1 <= j < Z.of_nat (length prices))%Z) ->
  length lows = (length closes - 1)%nat -> length highs = (length closes - 1)%nat ->
  (forall x, In x lows \/ In x highs ->
     (- 2 ^ 31 <= rhe (x / tick)%Q < 2 ^ 31)%Z /\ (- 2 ^ 31 <= c - rhe (x / tick)%Q < 2 ^ 31)%Z) ->
  both (Forall2 (fp_turned c)) (comp_bar_footprints prices amounts closes sides tick lows highs mult)
    (comp_bar_footprints (upside_down tick c prices) amounts closes (flipped sides) tick
       (upside_down tick c highs) (upside_down tick c lows) mult).
Proof. intros. now apply footprints_turn. Qed.
Example C172_upside_down_example :
  let p := [10; 11; 12; 11; 10; 12] in let am := [1; 2; 9; 3; 7; 3] in let s := [1; 1; 1; 1; -1; -1]%Z in
  let x := comp_bar_footprints p am [-1; 5]%Z s 1 [10] [12] 2 in
  let y := comp_bar_footprints (upside_down 1 30 p) am [-1; 5]%Z (flipped s) 1 (upside_down 1 30 [12]) (upside_down 1 30 [10]) 2 in
  let a := one_of x in let b := one_of y in
  x = Ok [a] /\ y = Ok [b] /\ fp_turned 30 a b /\ one_peak a /\ one_sided a /\
  fp_bi a = [false; false; true] /\ fp_si a = [false; false; false] /\ fp_si b = [true; false; false] /\
  fp_run a = 1%Z /\ fp_run b = (-1)%Z /\ fp_cot a = 12%Z /\ fp_cot b = 18%Z.
Proof.
  intros p am s x y a b. assert (X : x = Ok [a]) by (vm_compute; reflexivity). assert (Y : y = Ok [b]) by (vm_compute; reflexivity).
  split; [exact X|]. split; [exact Y|].
  split; [|split; [|split; [|vm_compute; auto 10]]].
  - refine (both_one (fp_turned 30) x y a b (C172_upside_down p am [-1; 5]%Z s 1 [10] [12] 2 30 eq_refl _ eq_refl eq_refl _) X Y).
    + cbn. intros j [<-|[<-|[]]]; lia.
    + intros z [[<-|[]]|[<-|[]]]; vm_compute; repeat split; discriminate.
  - exists 2%nat. assert (E1 : fp_levels a = [10; 11; 12]%Z) by (vm_compute; reflexivity).
    assert (E2 : fp_bv a = [1; 5; 9]) by (vm_compute; reflexivity). assert (E3 : fp_sv a = [7; 0; 3]) by (vm_compute; reflexivity).
    rewrite E1, E2, E3. clear. cbn [length]. split; [lia|]. intros k Hk Hn.
    destruct k as [|[|[|k]]]; [reflexivity|reflexivity|congruence|lia].
  - intros i [A B]. assert (E : fp_si a = [false; false; false]) by (vm_compute; reflexivity). rewrite E in B. clear - B.
    destruct i as [|[|[|[|i]]]]; discriminate.
Qed.

(** Around a point between two ticks they are not: prices half way between two ticks go to the even one. *)
Theorem C172_half_tick_refuted : exists (prices : list Q) c a b, Z.even c = false /\
  comp_bar_footprints prices [1; 1] [-1; 1]%Z [1; 1]%Z 1 [1 # 2] [1] 2 = Ok [a] /\
  comp_bar_footprints (upside_down 1 c prices) [1; 1] [-1; 1]%Z [-1; -1]%Z 1 (upside_down 1 c [1]) (upside_down 1 c [1 # 2]) 2 = Ok [b] /\
  fp_levels a = [0; 1]%Z /\ fp_levels b = [10]%Z.
Proof. exists [1 # 2; 1], 11%Z. eexists. eexists. vm_compute. auto 10. Qed.

(** Two levels with the same largest volume: the point of control is the lower one, before and after. *)
Theorem C172_peak_refuted : exists (prices : list Q) a b,
  comp_bar_footprints prices [1; 1] [-1; 1]%Z [1; 1]%Z 1 [10] [11] 2 = Ok [a] /\
  comp_bar_footprints (upside_down 1 30 prices) [1; 1] [-1; 1]%Z [-1; -1]%Z 1 (upside_down 1 30 [11]) (upside_down 1 30 [10]) 2 = Ok [b] /\
  fp_mirrored 30 a b /\ fp_cot a = 10%Z /\ fp_cot b = 19%Z.
Proof. exists [10; 11]. eexists. eexists. vm_compute. repeat split. Qed.

(** Two longest runs, one of buy and one of sell imbalances: the lower one decides, before and after. *)
Theorem C172_run_refuted : exists (prices amounts : list Q) (sides : list Z) a b,
  comp_bar_footprints prices amounts [-1; 5]%Z sides 1 [10] [12] 2 = Ok [a] /\
  comp_bar_footprints (upside_down 1 30 prices) amounts [-1; 5]%Z (flipped sides) 1 (upside_down 1 30 [12]) (upside_down 1 30 [10]) 2 = Ok [b] /\
  fp_mirrored 30 a b /\ fp_run a = (-1)%Z /\ fp_run b = (-1)%Z.
Proof.
  exists [10; 11; 12; 11; 10; 12], [1; 2; 9; 1; 7; 3], [1; 1; 1; -1; -1; -1]%Z. eexists. eexists. vm_compute. repeat split.
Qed.

Print Assumptions C172_directional.
Print Assumptions C172_sides.
Print Assumptions C172_flags_refuted.
Print Assumptions C172_upside_down.
Print Assumptions C172_half_tick_refuted.
Print Assumptions C172_peak_refuted.
Print Assumptions C172_run_refuted.
