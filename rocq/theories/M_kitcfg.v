(** M_kitcfg.v -- saving and loading a FeatureKit (feature/kit.py L953-980). Writing the
    dictionary as JSON and reading it back is the identity on it (strings, lists and finite
    numbers); the file itself is not modelled. *)
From Coq Require Import String.
From Verif Require Import Base M_features M_kit M_config.

(** kit.py L953-955: a kit is a list of features and the retained columns. *)
Record kit := mkKit { kt_features : list feat; kt_retain : list string }.
(** kit.py L953-955 [FeatureKit.__init__]: [retain or []]. *)
Definition new_kit (fs : list feat) (retain : option (list string)) : kit :=
  mkKit fs (match retain with Some l => l | None => [] end).
(** kit.py L220-228 [Feature.to_config]. *)
Record fcfg := mkFcfg { fc_name : option string; fc_transform : cfg }.
(** kit.py L958-962: the saved dictionary; a key may be absent from a file written by hand
    (None). *)
Record kcfg := mkKcfg { kc_retain : option (list string); kc_features : option (list fcfg) }.
(** kit.py L220-228 [Feature.to_config]. *)
Definition feat_to_config (f : feat) : fcfg := mkFcfg (Some (f_name f)) (to_config (f_t f)).
(** kit.py L958-962 [FeatureKit.to_config]. *)
Definition kit_to_config (k : kit) : kcfg := mkKcfg (Some (kt_retain k)) (Some (map feat_to_config (kt_features k))).

Section KitConfig.
(** The functions of M_config: np.log and others (utils.py L81-85). *)
Variables np_log np_log1p np_exp np_sqrt : ext -> ext.
(** pandas rolling functions, shift and ewm (utils.py L107-121). *)
Variables r_mean r_std r_sum r_shift : Z -> series -> series.
Variable ewm : Z -> bool -> series -> series.
(** Python [float(text)] (utils.py L94, L98). *)
Variable pyfloat : string -> option Q.
(** What saving and loading makes of a leaf (utils.py L201-221, L288-303). *)
Variable reload_leaf : core -> result core.
(** kit.py L230-238 [Feature.from_config]: without a name the name of the transform. *)
Definition feat_from_config (c : fcfg) : result feat :=
  match from_config np_log np_log1p np_exp np_sqrt r_mean r_std r_sum r_shift ewm pyfloat reload_leaf (fc_transform c) with
  | Ok t => Ok (mkFeat (match fc_name c with Some n => n | None => out_name t end) t)
  | Raise e => Raise e
  end.
(** kit.py L968-972 [FeatureKit.from_dict]: missing keys count as empty lists. *)
Definition kit_from_dict (c : kcfg) : result kit :=
  match collect (map feat_from_config (match kc_features c with Some l => l | None => [] end)) with
  | Ok fs => Ok (new_kit fs (Some (match kc_retain c with Some l => l | None => [] end)))
  | Raise e => Raise e
  end.
(** kit.py L964-966 [save_config] followed by L974-978 [from_config]. *)
Definition reload_kit (k : kit) : result kit := kit_from_dict (kit_to_config k).
End KitConfig.
