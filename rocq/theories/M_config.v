(** M_config.v -- saving and loading features (feature/utils.py L21-303, the methods of
    Feature in feature/kit.py L220-427). Single-output transforms; ExternalFunction and
    dictionary-valued parameters are not modelled. *)
From Coq Require Import String Ascii DecimalString.
From Verif Require Import Base M_features M_transforms M_kit M_graph.
Open Scope Z_scope.

(* ------------------------------------------------------------------ *)
(** ** Parameters of transform classes *)

(** Constructor arguments (feature/utils.py L21-52); a Timedelta is its number of nanoseconds. *)
Inductive pval := PNone | PBool (b : bool) | PInt (z : Z) | PFloat (q : Q) | PStr (s : string) | PTd (ns : Z)
                | PList (l : list string) | PTuple (l : list string).
(** A transform class (feature/utils.py L246-303): name, constructor signature with defaults (None: required), the
    parameters also stored as attributes of the same name, default of [input_cols]. *)
Record kls := mkKls { k_name : string; k_sig : list (string * option pval); k_stored : list string; k_cols : list string }.
(** Arguments by parameter name (utils.py L292). *)
Definition bindings := list (string * pval).
(** Look up a parameter (utils.py L292 keyword arguments). *)
Fixpoint pget (a : bindings) (n : string) : option pval :=
  match a with [] => None | (m, v) :: a' => if String.eqb m n then Some v else pget a' n end.
(** A constructed object: all parameters bound, the given ones or the defaults; TypeError
    if a required one is missing (Python call semantics of utils.py L292). *)
Fixpoint construct (sig : list (string * option pval)) (given : bindings) : result bindings :=
  match sig with
  | [] => Ok []
  | (n, d) :: sig' =>
      match (match pget given n with Some v => Some v | None => d end) with
      | None => Raise TypeError
      | Some v => match construct sig' given with Ok r => Ok ((n, v) :: r) | Raise e => Raise e end
      end
  end.
(** [requires] of an object: [input_col], or [input_cols] with its default for None
    (transforms.py, e.g. L287-290, and the constructors of base.py). *)
Definition requires (k : kls) (a : bindings) : list string :=
  match pget a "input_col" with
  | Some (PStr s) => [s]
  | _ => match pget a "input_cols" with
         | Some (PList l) | Some (PTuple l) => l
         | _ => k_cols k
         end
  end.

Section Config.
(** [Timedelta.total_seconds()] and [Timedelta(seconds = .)] (utils.py L28, L45). *)
Variable total_seconds : Z -> Q.
Variable of_seconds : Q -> Z.
(** utils.py L21-36 [_serialize_value] followed by L39-50 [_deserialize_value]: tuples
    become lists. *)
Definition reload (v : pval) : pval :=
  match v with PTd ns => PTd (of_seconds (total_seconds ns)) | PTuple l => PList l | _ => v end.
(** utils.py L204-216: parameters found on the object. *)
Definition saved_params (k : kls) (a : bindings) : bindings :=
  flat_map (fun p => let n := fst p in
    if String.eqb n "input_col" then [(n, PStr (hd EmptyString (requires k a)))]
    else if String.eqb n "input_cols" then [(n, PList (requires k a))]
    else if mem n (k_stored k) then match pget a n with Some v => [(n, v)] | None => [] end
    else []) (k_sig k).
(** utils.py L288-303: the object rebuilt from its saved parameters; None stands for the
    "shallow" object made without its constructor when the constructor raises. *)
Definition reload_class (k : kls) (a : bindings) : option bindings :=
  match construct (k_sig k) (map (fun p => (fst p, reload (snd p))) (saved_params k a)) with
  | Ok r => Some r
  | Raise _ => None
  end.

(* ------------------------------------------------------------------ *)
(** ** Operators *)

(** utils.py L65-72 [_OP_BINARY]. *)
Definition op_binary (op : string) : option (series -> series -> series) :=
  if String.eqb op "add" then Some (zipw eadd) else if String.eqb op "sub" then Some (zipw esub)
  else if String.eqb op "mul" then Some (zipw emul) else if String.eqb op "div" then Some (zipw edivide)
  else if String.eqb op "rsub" then Some (zipw (fun x y => esub y x))
  else if String.eqb op "rdiv" then Some (zipw (fun x y => edivide y x)) else None.
(** utils.py L74-77 [_OP_MINMAX]. *)
Definition op_minmax (op : string) : option (series -> series -> series) :=
  if String.eqb op "min" then Some (zipw emin) else if String.eqb op "max" then Some (zipw emax2) else None.
(** utils.py L246-255: operations with a constant. *)
Definition op_const (op : string) : option (series -> ext -> series) :=
  if String.eqb op "add" then Some (fun s k => map (fun v => eadd v k) s)
  else if String.eqb op "sub" then Some (fun s k => map (fun v => esub v k) s)
  else if String.eqb op "mul" then Some (fun s k => map (fun v => emul v k) s)
  else if String.eqb op "div" then Some (fun s k => map (fun v => edivide v k) s)
  else if String.eqb op "rsub" then Some (fun s k => map (fun v => esub k v) s)
  else if String.eqb op "rdiv" then Some (fun s k => map (fun v => edivide k v) s)
  else if String.eqb op "min" then Some (fun s k => map (fun v => emin v k) s)
  else if String.eqb op "max" then Some (fun s k => map (fun v => emax2 v k) s)
  else None.

(** np.log, np.log1p, np.exp, np.sqrt (utils.py L81-85, kit.py L349-381). *)
Variables np_log np_log1p np_exp np_sqrt : ext -> ext.
(** pandas rolling mean, standard deviation and sum over n rows, exponential mean with span
    and adjust, shift by n rows (utils.py L107-121, kit.py L390-427). *)
Variables r_mean r_std r_sum r_shift : Z -> series -> series.
Variable ewm : Z -> bool -> series -> series.
(** Python [float(text)] (utils.py L94, L98); None if it raises. *)
Variable pyfloat : string -> option Q.

(** utils.py L79-86 [_OP_UNARY]. *)
Definition op_unary (op : string) : option (series -> series) :=
  if String.eqb op "abs" then Some (map eabs)
  else if String.eqb op "log" then Some (map (fun v => if eltb (Fin 0) v then np_log v else NaN))
  else if String.eqb op "log1p" then Some (map (fun v => match v with NaN => NaN | _ => if eltb v (Fin 0) then NaN else np_log1p v end))
  else if String.eqb op "exp" then Some (map np_exp)
  else if String.eqb op "square" then Some (map esquare)
  else if String.eqb op "sqrt" then Some (map (fun v => match v with NaN => NaN | _ => if eltb v (Fin 0) then NaN else np_sqrt v end))
  else None.
(** [name.split("_")] (utils.py L92). *)
Fixpoint split_us (s : string) : list string :=
  match s with
  | EmptyString => [EmptyString]
  | String c s' => if Ascii.eqb c "_"%char then EmptyString :: split_us s'
                   else match split_us s' with h :: t => String c h :: t | [] => [String c EmptyString] end
  end.
(** Python [int(text)] (utils.py L106-120): optional minus sign and digits (signs "+",
    blanks and underscores, which Python also accepts, are left out). *)
Definition py_int (s : string) : option Z := option_map Z.of_int (NilZero.int_of_string s).
(** [str(n)] of an int (the f-strings of kit.py L390-427). *)
Definition py_str (n : Z) : string := NilZero.string_of_int (Z.to_int n).
(** [name.startswith(p)] and [name[len(p):]] (utils.py L91, L105-120). *)
Fixpoint strip_prefix (p s : string) : option string :=
  match p, s with
  | EmptyString, _ => Some s
  | String a p', String c s' => if Ascii.eqb a c then strip_prefix p' s' else None
  | _, _ => None
  end.
(** utils.py L93-100: one bound of a clip. *)
Definition clip_bound (part : option string) : option Q :=
  match part with Some s => if String.eqb s "" then None else pyfloat s | None => None end.
(** utils.py L104-124: the first matching prefix decides; if the rest is not a number, fall
    through to the static map. *)
Fixpoint by_prefix (l : list (string * (Z -> series -> series))) (name : string) : option (series -> series) :=
  match l with
  | [] => op_unary name
  | (p, f) :: l' => match strip_prefix p name with
                    | Some rest => match py_int rest with Some n => Some (f n) | None => op_unary name end
                    | None => by_prefix l' name
                    end
  end.
(** utils.py L89-127 [_maybe_unary_from_name]. *)
Definition maybe_unary (name : string) : option (series -> series) :=
  match strip_prefix "clip_" name with
  | Some _ => let parts := split_us name in
              Some (map (eclip (clip_bound (nth_error parts 1)) (clip_bound (nth_error parts 2))))
  | None => by_prefix [("rmean", r_mean); ("rstd", r_std); ("rsum", r_sum); ("tsum", r_sum);
                       ("ema", fun n => ewm n true); ("lag", r_shift)]%string name
  end.

(* ------------------------------------------------------------------ *)
(** ** Saving and loading transforms *)

(** The saved dictionary (utils.py L132-221); a leaf keeps the object it was made from. *)
Inductive cfg :=
| CLeaf (c : core)
| CBinary (op : string) (l r : cfg)
| CMinMax (op : string) (l r : cfg)
| CConst (op : string) (k : const) (child : cfg)
| CUnary (op : string) (child : cfg)
| CCompose (first : core) (rest : list core).
(** utils.py L132-199 [transform_to_config]. *)
Fixpoint to_config (t : trans) : cfg :=
  match t with
  | Leaf c => CLeaf c
  | Binary l r op _ => CBinary op (to_config l) (to_config r)
  | MinMax l r op _ => CMinMax op (to_config l) (to_config r)
  | Const u k op _ => CConst op k (to_config u)
  | Unary u op _ _ => CUnary op (to_config u)
  | Compose f rest => CCompose f rest
  end.
(** What saving and loading makes of a leaf (utils.py L201-221, L288-303); see
    [reload_class]. *)
Variable reload_leaf : core -> result core.
(** utils.py L224-303 [transform_from_config]. *)
Fixpoint from_config (c : cfg) : result trans :=
  match c with
  | CLeaf k => match reload_leaf k with Ok k' => Ok (Leaf k') | Raise e => Raise e end
  | CBinary op l r =>
      match from_config l with
      | Ok l' => match from_config r with
                 | Ok r' => match op_binary op with Some g => Ok (Binary l' r' op g) | None => Raise ValueError end
                 | Raise e => Raise e
                 end
      | Raise e => Raise e
      end
  | CMinMax op l r =>
      match from_config l with
      | Ok l' => match from_config r with
                 | Ok r' => match op_minmax op with Some g => Ok (MinMax l' r' op g) | None => Raise ValueError end
                 | Raise e => Raise e
                 end
      | Raise e => Raise e
      end
  | CConst op k u =>
      match from_config u with
      | Ok u' => match op_const op with Some g => Ok (Const u' k op g) | None => Raise ValueError end
      | Raise e => Raise e
      end
  | CUnary op u =>
      match from_config u with
      | Ok u' => match maybe_unary op with Some g => Ok (Unary u' op g None) | None => Raise ValueError end
      | Raise e => Raise e
      end
  | CCompose f rest =>
      match reload_leaf f with
      | Ok f' => match collect (map reload_leaf rest) with Ok rest' => Ok (Compose f' rest') | Raise e => Raise e end
      | Raise e => Raise e
      end
  end.
(** kit.py L220-238: the feature keeps its own name. *)
Definition reload_feat (f : feat) : result feat :=
  match from_config (to_config (f_t f)) with Ok t => Ok (mkFeat (f_name f) t) | Raise e => Raise e end.

(* ------------------------------------------------------------------ *)
(** ** Methods of Feature *)

(** A finite clip bound with its printed form (kit.py L332). *)
Record bound := mkBound { b_val : Q; b_str : string }.
(** The methods that go through [apply] (kit.py L324-427). *)
Inductive method :=
| MClip (lower upper : option bound) | MLog | MLog1p | MExp | MSquare | MSqrt
| MMean (n : Z) | MEma (span : Z) (adjust : bool) | MSum (n : Z) | MStd (n : Z) | MLag (n : Z).
(** kit.py L332: "None" is replaced by the empty text. *)
Definition bound_text (o : option bound) : string := match o with Some x => b_str x | None => ""%string end.
(** Suffixes: kit.py L332, L349-381, L390, L400, L409, L418, L427. *)
Definition suffix (m : method) : string :=
  match m with
  | MClip lo up => "clip_" ++ bound_text lo ++ "_" ++ bound_text up
  | MLog => "log" | MLog1p => "log1p" | MExp => "exp" | MSquare => "square" | MSqrt => "sqrt"
  | MMean n => "rmean" ++ py_str n | MEma n _ => "ema" ++ py_str n | MSum n => "rsum" ++ py_str n
  | MStd n => "rstd" ++ py_str n | MLag n => "lag" ++ py_str n
  end%string.
(** Functions: kit.py L333, L349-381, L390, L400, L409, L418, L427. *)
Definition mfun (m : method) : series -> series :=
  match m with
  | MClip lo up => map (eclip (option_map b_val lo) (option_map b_val up))
  | MLog => map (fun v => if eltb (Fin 0) v then np_log v else NaN)
  | MLog1p => map (fun v => match v with NaN => NaN | _ => if eltb v (Fin 0) then NaN else np_log1p v end)
  | MExp => map np_exp
  | MSquare => map esquare
  | MSqrt => map (fun v => match v with NaN => NaN | _ => if eltb v (Fin 0) then NaN else np_sqrt v end)
  | MMean n => r_mean n
  | MEma n adj => ewm n adj
  | MSum n => r_sum n
  | MStd n => r_std n
  | MLag n => r_shift n
  end.
End Config.

(* ------------------------------------------------------------------ *)
(** ** Class table *)
(** Constructors of transforms.py (lines given per class) with the parameters they store;
    the parameters missing in the third list are kept only in another form (for example
    ReturnT keeps [window_sec], L105). *)
Definition classes : list kls := [
  (* transforms.py L29 *) mkKls "Identity" [("input_col", Some (PStr "close"))] [] [];
  (* transforms.py L68 *) mkKls "Lag" [("periods", Some (PInt 1)); ("input_col", Some (PStr "close"))] ["periods"] [];
  (* transforms.py L94 *) mkKls "ReturnT" [("window", Some (PTd 1000)); ("is_log", Some (PBool false)); ("input_col", Some (PStr "close"))] ["is_log"] [];
  (* transforms.py L124 *) mkKls "Return" [("periods", Some (PInt 1)); ("input_col", Some (PStr "close")); ("is_log", Some (PBool false))] ["periods"; "is_log"] [];
  (* transforms.py L159 *) mkKls "ROC" [("periods", None); ("input_col", Some (PStr "close"))] ["periods"] [];
  (* transforms.py L184 *) mkKls "PctChange" [("window", None); ("input_col", Some (PStr "close"))] [] [];
  (* transforms.py L211 *) mkKls "RSIWilder" [("window", Some (PInt 14)); ("input_col", Some (PStr "close"))] ["window"] [];
  (* transforms.py L280 *) mkKls "StochK" [("length", Some (PInt 14)); ("input_cols", Some PNone)] ["length"] ["high"; "low"; "close"];
  (* transforms.py L312 *) mkKls "EWMST" [("half_life", None); ("input_col", Some (PStr "y"))] [] [];
  (* transforms.py L339 *) mkKls "ZScore" [("window", None); ("input_col", None); ("ddof", Some (PInt 0))] ["window"; "ddof"] [];
  (* transforms.py L366 *) mkKls "BurstRatio" [("window", None); ("input_col", None)] ["window"] [];
  (* transforms.py L392 *) mkKls "VWAPDistance" [("periods", None); ("is_log", Some (PBool false)); ("input_cols", Some PNone)] ["periods"; "is_log"] ["close"; "volume"];
  (* transforms.py L425 *) mkKls "TimeCues" [("input_col", Some (PStr "close"))] [] [];
  (* transforms.py L454 *) mkKls "RealizedVolatility" [("window", None); ("is_sample", Some (PBool false)); ("input_col", Some (PStr "ret"))] ["window"; "is_sample"] [];
  (* transforms.py L498 *) mkKls "BollingerPercentB" [("window", None); ("num_std", Some (PFloat 2)); ("input_col", Some (PStr "close"))] ["window"; "num_std"] [];
  (* transforms.py L525 *) mkKls "ParkinsonRange" [("input_cols", Some PNone)] [] ["high"; "low"];
  (* transforms.py L553 *) mkKls "SMA" [("window", None); ("input_col", Some (PStr "x"))] ["window"] [];
  (* transforms.py L581 *) mkKls "EWMA" [("span", None); ("input_col", Some PNone)] ["span"] [];
  (* transforms.py L609 *) mkKls "FlowAcceleration" [("window", None); ("recent_periods", None); ("input_col", Some (PStr "volume"))] ["window"; "recent_periods"] [];
  (* transforms.py L641 *) mkKls "CUSUMTest" [("window_size", Some (PInt 50)); ("warmup_period", Some (PInt 30)); ("max_age", Some (PInt 144)); ("input_col", Some (PStr "close"))] ["window_size"; "warmup_period"; "max_age"] [];
  (* transforms.py L715 *) mkKls "ATR" [("window", Some (PInt 14)); ("ema_based", Some (PBool false)); ("normalize", Some (PBool false)); ("input_cols", Some PNone)] ["window"; "ema_based"; "normalize"] ["high"; "low"; "close"];
  (* transforms.py L758 *) mkKls "PriceVolumeCorrelation" [("window", Some (PInt 8)); ("input_cols", Some PNone)] ["window"] ["close"; "volume"];
  (* transforms.py L821 *) mkKls "VPIN" [("window", Some (PInt 32)); ("input_cols", Some PNone)] ["window"] ["volume_buy"; "volume_sell"];
  (* transforms.py L875 *) mkKls "VarianceRatio14" [("window", Some (PInt 32)); ("input_col", Some (PStr "close")); ("ret_type", Some (PStr "log")); ("ddof", Some (PInt 0))] ["window"; "ret_type"; "ddof"] [];
  (* transforms.py L908 *) mkKls "KurtosisTransform" [("window", Some (PInt 32)); ("input_col", Some (PStr "ret1"))] ["window"] [];
  (* transforms.py L944 *) mkKls "TrendSlope" [("window", Some (PInt 24)); ("input_col", Some (PStr "close"))] ["window"] [];
  (* transforms.py L1000 *) mkKls "ADX" [("length", Some (PInt 14)); ("input_cols", Some PNone)] ["length"] ["high"; "low"; "close"];
  (* transforms.py L1039 *) mkKls "MeanReversionZScore" [("window", Some (PInt 48)); ("input_col", Some (PStr "close"))] ["window"] [];
  (* transforms.py L1073 *) mkKls "DailyGap" [("input_col", Some (PStr "close"))] [] [];
  (* transforms.py L1133 *) mkKls "ORBBreak" [("input_cols", Some PNone)] [] ["high"; "low"; "close"];
  (* transforms.py L1223 *) mkKls "BarRate" [("window", None); ("input_col", Some (PStr "close"))] [] [];
  (* transforms.py L1283 *) mkKls "CandleShape" [("input_cols", Some PNone)] [] ["open"; "high"; "low"; "close"; "vwap"];
  (* transforms.py L1352 *) mkKls "HurstExponent" [("window", Some (PInt 24)); ("input_col", Some (PStr "ret1"))] ["window"] [];
  (* transforms.py L1410 *) mkKls "ApproximateEntropy" [("window", Some (PInt 24)); ("m", Some (PInt 2)); ("tolerance", Some (PFloat (1#5))); ("input_col", Some (PStr "ret1"))] ["window"; "m"; "tolerance"] [];
  (* transforms.py L1470 *) mkKls "BarDurationEWMA" [("span", Some (PInt 20)); ("input_col", Some (PStr "close"))] ["span"] [];
  (* transforms.py L1515 *) mkKls "BarDuration" [("periods", Some (PInt 1)); ("input_col", Some (PStr "close"))] ["periods"] [];
  (* transforms.py L1564 *) mkKls "BiPowerVariation" [("window", Some (PInt 12)); ("input_col", Some (PStr "ret1"))] ["window"] [];
  (* transforms.py L1613 *) mkKls "DirRunLen" [("input_col", Some (PStr "ret1"))] [] []

]%string.
