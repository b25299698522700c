(** M_float14.v -- [comp_bar_footprints] (finmlkit/bar/base.py) with float64 and float32 rounding: the float32 level volumes of
    M_float.v handed to the float32 features of M_float12.v, where M_footprint.v takes the arithmetic exact. *)
From Verif Require Import Base M_footprint M_float M_float12.
Open Scope Q_scope.

Section Footprints.
  (** base.py L843: [np.dot] of two float32 arrays. *)
  Variable dot : list Q -> list Q -> Q.

  (** base.py L684-745: one bar. *)
  Definition bar_footprint_f (prices amounts : list Q) (sides : list Z) (tick lo hi mult : Q) (s e : Z) : result footprint :=
    match bar_levels_f prices amounts sides tick lo hi s e with
    | Raise x => Raise x
    | Ok st =>
        let lv := map (wraps 32) (zrange (level_f tick lo) (level_f tick hi + 1)) in
        match comp_footprint_features_f dot lv (lv_bv st) (lv_sv st) mult with
        | Raise x => Raise x
        | Ok f => Ok (mkFp lv (lv_bv st) (lv_sv st) (lv_bt st) (lv_st st) (ff_bi f) (ff_si f)
                        (count_true (ff_bi f)) (count_true (ff_si f))
                        (ff_cot f) (wraps 16 (ff_run f)) (ff_skew f) (ff_gini f))
        end
    end.

  (** base.py L616-752 [comp_bar_footprints]. *)
  Definition comp_bar_footprints_f (prices amounts : list Q) (closes sides : list Z) (tick : Q)
      (lows highs : list Q) (mult : Q) : result (list footprint) :=
    run_all (fun k => bar_footprint_f prices amounts sides tick (nth k lows 0) (nth k highs 0) mult
                        (nth k closes 0%Z) (nth (S k) closes 0%Z))
            (seq 0 (length closes - 1)).
End Footprints.
