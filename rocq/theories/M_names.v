(** M_names.v -- the single-output transform classes of feature/transforms.py as they are
    constructed: parameters, required columns and output names. Their computations are
    modelled elsewhere (M_features.v, M_transforms.v, M_volat.v, M_volume.v, M_backend.v)
    and enter here as a function of the object. Classes with several outputs are in
    M_multi.v. *)
From Coq Require Import String.
From Verif Require Import Base M_features M_transforms M_kit M_config.
Open Scope string_scope.

Section Names.
(** Python floats with [repr] (the f-strings of transforms.py L103, L320, L1234), the test
    [window_sec > 1e-6] (L103), [window_sec / 60.] (L1232) and [is_integer] (L1234). *)
Variable flt : Type.
Variable frepr : flt -> string.
Variable above_micro : flt -> bool.
Variable minutes : flt -> flt.
Variable whole : flt -> bool.

(** transforms.py L25-1662: the constructed objects with what their constructors store. A
    window given as Timedelta is stored in seconds (L102-105, L319-321, L1231-1238);
    [None] for [input_cols] stands for the default columns. *)
Inductive tobj :=
| TIdentity (col : string)                                     (* L29-36 *)
| TLag (periods : Z) (col : string)                            (* L68-76 *)
| TReturnT (window_sec : flt) (is_log : bool) (col : string)   (* L94-106 *)
| TReturn (periods : Z) (col : string) (is_log : bool)         (* L124-134 *)
| TROC (periods : Z) (col : string)                            (* L159-167 *)
| TPctChange (window : Z) (col : string)                       (* L184-193 *)
| TRSI (window : Z) (col : string)                             (* L211-219 *)
| TStochK (len : Z) (cols : option (list string))              (* L280-291 *)
| TEWMST (half_life_sec : flt) (col : string)                  (* L312-321 *)
| TZScore (window : Z) (col : string) (ddof : Z)               (* L339-349 *)
| TBurst (window : Z) (col : string)                           (* L366-375 *)
| TVWAPD (periods : Z) (is_log : bool) (cols : option (list string)) (* L392-405 *)
| TRealVol (window : Z) (is_sample : bool) (col : string)      (* L454-464 *)
| TBoll (window : Z) (num_std : flt) (col : string)            (* L498-508 *)
| TPark (cols : option (list string))                          (* L525-533 *)
| TSMA (window : Z) (col : string)                             (* L553-561 *)
| TEWMA (span : Z) (col : string)                              (* L581-589 *)
| TFlow (window recent : Z) (col : string)                     (* L609-618 *)
| TATR (window : Z) (ema norm : bool) (cols : option (list string)) (* L715-737 *)
| TPVCorr (window : Z) (cols : option (list string))           (* L758-772 *)
| TVPIN (window : Z) (cols : option (list string))             (* L821-835 *)
| TVarRatio (window : Z) (col ret_type : string) (ddof : Z)    (* L875-887 *)
| TKurt (window : Z) (col : string)                            (* L908-916 *)
| TTrend (window : Z) (col : string)                           (* L944-952 *)
| TADX (len : Z) (cols : option (list string))                 (* L1000-1014 *)
| TMRZ (window : Z) (col : string)                             (* L1039-1047 *)
| TGap (col : string)                                          (* L1073-1079 *)
| TBarRate (window_sec : flt) (col : string)                   (* L1223-1238 *)
| THurst (window : Z) (col : string)                           (* L1352-1361 *)
| TApEn (window m : Z) (tolerance : flt) (col : string)        (* L1410-1422 *)
| TDurEwma (span : Z) (col : string)                           (* L1470-1481 *)
| TDur (periods : Z) (col : string)                            (* L1515-1524 *)
| TBiPower (window : Z) (col : string)                         (* L1564-1574 *)
| TRunLen (col : string).                                      (* L1613-1619 *)

(** The produced name passed to the base class (the [super().__init__] calls of the lines
    cited at [tobj], transforms.py L25-1662). *)
Definition produced (t : tobj) : string :=
  match t with
  | TIdentity col => col
  | TLag n _ => "lag" ++ py_str n
  | TReturnT s _ _ => if above_micro s then "ret" ++ frepr s ++ "s" else "ret1"
  | TReturn n _ _ => "ret" ++ py_str n
  | TROC n _ => "roc" ++ py_str n
  | TPctChange n _ => "pctc" ++ py_str n
  | TRSI n _ => "rsiw" ++ py_str n
  | TStochK n _ => "stochk" ++ py_str n
  | TEWMST s _ => "ewms" ++ frepr s ++ "s"
  | TZScore n _ _ => "z" ++ py_str n
  | TBurst n _ => "burst" ++ py_str n
  | TVWAPD n _ _ => "vwapd" ++ py_str n
  | TRealVol n _ _ => "rv" ++ py_str n
  | TBoll n _ _ => "bollb" ++ py_str n
  | TPark _ => "parkrange"
  | TSMA n _ => "sma" ++ py_str n
  | TEWMA n _ => "ewma" ++ py_str n
  | TFlow n r _ => "flowacc_" ++ py_str n ++ "_" ++ py_str r
  | TATR n ema norm _ => "atr" ++ py_str n ++ (if ema then "_ema" else "") ++ (if norm then "_norm" else "")
  | TPVCorr n _ => "corr_pv_" ++ py_str n
  | TVPIN n _ => "vpin_" ++ py_str n
  | TVarRatio n _ _ _ => "var_ratio_1_4_" ++ py_str n
  | TKurt n _ => "kurt_" ++ py_str n
  | TTrend n _ => "trend_slope_" ++ py_str n
  | TADX n _ => "adx_" ++ py_str n
  | TMRZ n _ => "mr_z_" ++ py_str n
  | TGap _ => "daily_gap"
  | TBarRate s _ => if whole (minutes s) then "bars_per_hour" else "rate_" ++ frepr (minutes s) ++ "m"
  | THurst n _ => "hurst" ++ py_str n
  | TApEn n _ _ _ => "apen" ++ py_str n
  | TDurEwma n _ => "dur_ewma" ++ py_str n
  | TDur n _ => "dur_" ++ py_str n ++ "bar"
  | TBiPower n _ => "bv_" ++ py_str n
  | TRunLen _ => "dir_run_len"
  end.

(** [input_cols or default] (transforms.py L287-288, L400-401, L531-532, L724-725, L765-766,
    L828-829, L1007-1008). *)
Definition or_default (cols : option (list string)) (d : list string) : list string :=
  match cols with Some l => l | None => d end.
(** [requires] (base.py L92; columns as at [or_default], transforms.py). *)
Definition req_cols (t : tobj) : list string :=
  match t with
  | TStochK _ c | TATR _ _ _ c | TADX _ c => or_default c ["high"; "low"; "close"]
  | TVWAPD _ _ c | TPVCorr _ c => or_default c ["close"; "volume"]
  | TPark c => or_default c ["high"; "low"]
  | TVPIN _ c => or_default c ["volume_buy"; "volume_sell"]
  | TIdentity c | TLag _ c | TReturnT _ _ c | TReturn _ c _ | TROC _ c | TPctChange _ c | TRSI _ c | TEWMST _ c
  | TZScore _ c _ | TBurst _ c | TRealVol _ _ c | TBoll _ _ c | TSMA _ c | TEWMA _ c | TFlow _ _ c | TVarRatio _ c _ _
  | TKurt _ c | TTrend _ c | TMRZ _ c | TGap c | TBarRate _ c | THurst _ c | TApEn _ _ _ c | TDurEwma _ c | TDur _ c
  | TBiPower _ c | TRunLen c => [c]
  end.
(** Subclass of SISOTransform (base.py L335), whose output name starts with the input
    column (base.py L486-492); the others are MISO (L504, L700-706) or Identity
    (transforms.py L25, L55-60), named as produced. *)
Definition siso (t : tobj) : bool :=
  match t with
  | TStochK _ _ | TATR _ _ _ _ | TADX _ _ | TVWAPD _ _ _ | TPVCorr _ _ | TPark _ | TVPIN _ _ | TIdentity _ => false
  | _ => true
  end.

(** The computations [_pd] and [_nb] of the objects on their required columns (transforms.py;
    they may use the index). *)
Variable compute : tobj -> backend -> list series -> result series.
(** The object as the kit sees it (base.py L226-252, L470-501, L683-715; transforms.py
    L38-60 for Identity). *)
Definition core_of (t : tobj) : core := mkCore (siso t) (req_cols t) (produced t) (compute t).
(** kit.py L194-196 [Feature(transform)]: named after its transform. *)
Definition feat_of (t : tobj) : feat := mkFeat (out_name (Leaf (core_of t))) (Leaf (core_of t)).
End Names.
Arguments TIdentity {flt}. Arguments TLag {flt}. Arguments TReturnT {flt}. Arguments TReturn {flt}. Arguments TROC {flt}.
Arguments TPctChange {flt}. Arguments TRSI {flt}. Arguments TStochK {flt}. Arguments TEWMST {flt}. Arguments TZScore {flt}.
Arguments TBurst {flt}. Arguments TVWAPD {flt}. Arguments TRealVol {flt}. Arguments TBoll {flt}. Arguments TPark {flt}.
Arguments TSMA {flt}. Arguments TEWMA {flt}. Arguments TFlow {flt}. Arguments TATR {flt}. Arguments TPVCorr {flt}.
Arguments TVPIN {flt}. Arguments TVarRatio {flt}. Arguments TKurt {flt}. Arguments TTrend {flt}. Arguments TADX {flt}.
Arguments TMRZ {flt}. Arguments TGap {flt}. Arguments TBarRate {flt}. Arguments THurst {flt}. Arguments TApEn {flt}.
Arguments TDurEwma {flt}. Arguments TDur {flt}. Arguments TBiPower {flt}. Arguments TRunLen {flt}.
Arguments siso {flt}. Arguments req_cols {flt}.
