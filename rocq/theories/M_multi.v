(** M_multi.v -- transforms with several outputs (feature/base.py L718-1254), external
    functions (feature/transforms.py L1668-1805) and their place in FeatureKit.build
    (feature/kit.py L194-228, L1014-1066). Columns as in M_kit.v: all columns of a frame
    share the index, and a Series returned by a transform carries that index (ORBBreak
    returns it sorted; assignment to the frame re-aligns it). Operators on several-output
    transforms (not supported by the library) are not modelled. *)
From Coq Require Import String.
From Verif Require Import Base M_features M_transforms M_kit.
Open Scope Q_scope.

(** base.py L718-986 (SIMO), L989-1254 (MIMO): required and produced names, whether the
    output names are prefixed by the input (base.py L969-975; not so for MIMO, L1238-1243,
    nor for TimeCues and CUSUMTest, transforms.py L444-446, L706-708), and the
    computation, which may use the index. *)
Record mcore := mkM { m_req : list string; m_prod : list string; m_prefixed : bool;
                      m_fun : backend -> list series -> result (list series) }.
(** base.py L969-975 and L1238-1243. *)
Definition m_names (c : mcore) : list string :=
  if m_prefixed c then map (fun p => hd EmptyString (m_req c) ++ "_" ++ p)%string (m_prod c) else m_prod c.
(** base.py L956-957, L1224-1226: ValueError for a missing column. *)
Definition columns (x : frame) (names : list string) : result (list series) :=
  collect (map (fun n => match get x n with Some s => Ok s | None => Raise ValueError end) names).
(** base.py L226-252 [__call__] and L977-986, L1245-1254 [_prepare_output_nb]. (CandleShape
    and ORBBreak name their outputs themselves, transforms.py L1160-1161, L1324-1327: same
    names, one per produced name.) *)
Definition multi_call (b : backend) (x : frame) (c : mcore) : result (list (string * series)) :=
  match columns x (m_req c) with
  | Raise e => Raise e
  | Ok cols =>
      match m_fun c b cols with
      | Raise e => Raise e
      | Ok ys => if (length ys =? length (m_prod c))%nat then Ok (combine (m_names c) ys) else Raise ValueError
      end
  end.

(** What an external function returns (transforms.py L1785-1805): a Series, an array or a
    scalar, or a tuple or list of these. *)
Inductive item := ISeries (s : series) | IArray (l : list ext) | IScalar (v : ext).
(** transforms.py L1785. *)
Inductive reply := ROne (i : item) | RMany (l : list item).
(** transforms.py L1684-1733: required columns, produced names, and the function applied
    to the columns followed by the user's arguments (L1781-1782). *)
Record extfun := mkX { e_req : list string; e_prod : list string; e_fun : list series -> result reply }.
(** transforms.py L1719-1723: default produced name. *)
Definition default_prod (func_name : string) (output_cols : option (list string)) : list string :=
  match output_cols with None => [("ext_" ++ func_name)%string] | Some l => l end.
(** transforms.py L1792-1797, L1800-1804: [pd.Series(item, index=index)] raises for an
    array of another length and repeats a scalar. *)
Definition to_column (n : nat) (i : item) : result series :=
  match i with
  | ISeries s => Ok s
  | IArray l => if (length l =? n)%nat then Ok l else Raise ValueError
  | IScalar v => Ok (repeat v n)
  end.
(** A Series or a tuple of Series (transforms.py L1762, kit.py L1056-1062). *)
Inductive outcome := Single (s : series) | Several (l : list (string * series)).
(** transforms.py L1762-1805. *)
Definition ext_call (x : frame) (e : extfun) : result outcome :=
  match columns x (e_req e) with
  | Raise er => Raise er
  | Ok [] => Raise IndexError
  | Ok (c0 :: cs) =>
      match e_fun e (c0 :: cs) with
      | Raise er => Raise er
      | Ok (RMany items) =>
          if (length items =? length (e_prod e))%nat
          then match collect (map (to_column (length c0)) items) with
               | Ok ss => Ok (Several (combine (e_prod e) ss))
               | Raise er => Raise er
               end
          else Raise ValueError
      | Ok (ROne i) => match to_column (length c0) i with Ok s => Ok (Single s) | Raise er => Raise er end
      end
  end.

(** The transforms a feature may hold (kit.py L194). *)
Inductive mtrans := TOne (t : trans) | TMany (c : mcore) | TExt (e : extfun).
(** A name or a list of names (kit.py L206-217). *)
Inductive mname := NStr (n : string) | NList (l : list string).
(** [output_name]: as [out_name], base.py L969-975, L1238-1243, transforms.py L1735-1739. *)
Definition mout (t : mtrans) : mname :=
  match t with
  | TOne t => NStr (out_name t)
  | TMany c => NList (m_names c)
  | TExt e => match e_prod e with [n] => NStr n | l => NList l end
  end.
(** kit.py L194-196. *)
Record mfeat := mkMF { mf_name : mname; mf_t : mtrans }.
(** kit.py L194-196 [Feature(transform)]. *)
Definition feature (t : mtrans) : mfeat := mkMF (mout t) t.
(** kit.py L211-217, the name setter; None for a failed assertion. *)
Definition rename (f : mfeat) (n : mname) : option mfeat :=
  match mf_name f, n with
  | NStr _, NStr _ => Some (mkMF n (mf_t f))
  | NList old, NList new => if (length new =? length old)%nat then Some (mkMF n (mf_t f)) else None
  | _, _ => None
  end.
(** [self.transform(x, backend)] (kit.py L204). *)
Definition mcall (b : backend) (x : frame) (t : mtrans) : result outcome :=
  match t with
  | TOne t => match call b x t with Ok s => Ok (Single s) | Raise e => Raise e end
  | TMany c => match multi_call b x c with Ok l => Ok (Several l) | Raise e => Raise e end
  | TExt e => ext_call x e
  end.
(** kit.py L198-204 with [cache = x]. *)
Definition mfeat_call (b : backend) (x : frame) (f : mfeat) : result outcome :=
  match mout (mf_t f) with
  | NStr n => match get x n with Some s => Ok (Single s) | None => mcall b x (mf_t f) end
  | NList _ => mcall b x (mf_t f)
  end.
(** kit.py L1062-1064. *)
Fixpoint put_all (x : frame) (l : list (string * series)) : frame :=
  match l with [] => x | (n, s) :: l' => put_all (put x n s) l' end.
(** kit.py L1056-1064. [out[list] = Series] (L1058) raises ValueError if the number of rows
    is not the number of names (and another error otherwise, which is simplified to
    ValueError). *)
Definition mstep (b : backend) (out df : frame) (f : mfeat) : result (frame * frame) :=
  match mfeat_call b df f with
  | Raise e => Raise e
  | Ok (Several l) => Ok (put_all out l, put_all df l)
  | Ok (Single s) =>
      match mf_name f, mout (mf_t f) with
      | NStr n, NStr o => Ok (put out n s, put df o s)
      | _, _ => Raise ValueError
      end
  end.
(** kit.py L1045-1066. *)
Fixpoint mbuild_loop (b : backend) (out df : frame) (fs : list mfeat) : result frame :=
  match fs with
  | [] => Ok out
  | f :: fs' => match mstep b out df f with Raise e => Raise e | Ok (o, d) => mbuild_loop b o d fs' end
  end.
(** kit.py L1014-1066, order = "defined". *)
Definition mkit_build (b : backend) (retain : list string) (df : frame) (fs : list mfeat) : result frame :=
  match retained df retain with Raise e => Raise e | Ok out => mbuild_loop b out df fs end.

(** transforms.py L641-660, L706-708: CUSUMTest on one column; [w] is the printed window. *)
Definition cusum_core (w col : string) (f : backend -> list series -> result (list series)) : mcore :=
  let up := ("cumote_up" ++ w)%string in let dn := ("cumote_down" ++ w)%string in
  mkM [col] [(up ++ "_score")%string; (dn ++ "_score")%string; (up ++ "_flag")%string; (dn ++ "_flag")%string;
             (up ++ "_age")%string; (dn ++ "_age")%string] false f.
