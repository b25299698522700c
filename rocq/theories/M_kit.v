(** M_kit.v -- operator transforms (feature/base.py L1257-1409), the feature operators,
    Compose and FeatureKit (feature/kit.py). Floats are exact rationals with signed
    infinities and NaN (signed zeros are not distinguished); a column is the list of its
    values, all columns of a frame share the index; single-output transforms only. *)
From Coq Require Import String.
From Verif Require Import Base M_features M_transforms.
Open Scope Q_scope.

(** feature/kit.py L198-217: a float column (list of its values). *)
Definition series := list ext.

(* ------------------------------------------------------------------ *)
(** ** Float arithmetic of the operators *)

(** kit.py L271-276 [x + y]. *)
Definition eadd (a b : ext) : ext :=
  match a, b with
  | NaN, _ | _, NaN | PInf, NInf | NInf, PInf => NaN
  | PInf, _ | _, PInf => PInf
  | NInf, _ | _, NInf => NInf
  | Fin x, Fin y => Fin (x + y)
  end.
(** Unary minus of a float, used for [x - y] (kit.py L278-283). *)
Definition eneg (a : ext) : ext := match a with Fin x => Fin (- x) | PInf => NInf | NInf => PInf | NaN => NaN end.
(** kit.py L278-283 [x - y]. *)
Definition esub (a b : ext) : ext := eadd a (eneg b).
(** Infinity with the sign of a * b, or NaN if one of them is zero (kit.py L285-290). *)
Definition sgn_inf (s : Z) : ext := if (s =? 0)%Z then NaN else if (0 <? s)%Z then PInf else NInf.
(** Sign of a float (kit.py L285-290). *)
Definition esgn (a : ext) : Z := match a with Fin x => qsign x | PInf => 1%Z | NInf => (-1)%Z | NaN => 0%Z end.
(** kit.py L285-290 [x * y]. *)
Definition emul (a b : ext) : ext :=
  match a, b with
  | NaN, _ | _, NaN => NaN
  | Fin x, Fin y => Fin (x * y)
  | _, _ => sgn_inf (esgn a * esgn b)
  end.
(** kit.py L292-297 [x / y]; division by (positive) zero as in numpy. *)
Definition edivide (a b : ext) : ext :=
  match a, b with
  | NaN, _ | _, NaN => NaN
  | Fin x, Fin y => ediv x y
  | Fin _, _ => Fin 0
  | _, Fin y => sgn_inf (esgn a * (if (qsign y =? 0)%Z then 1 else qsign y))
  | _, _ => NaN
  end.
(** kit.py L299-300 [x.abs()]. *)
Definition eabs (a : ext) : ext := match a with Fin x => Fin (Qabs x) | NInf => PInf | e => e end.
(** a < b for floats (False with NaN), used by [clip], [min] and [max] (kit.py L333,
    L429-461). *)
Definition eltb (a b : ext) : bool :=
  match a, b with
  | Fin x, Fin y => Qltb x y
  | NInf, Fin _ | NInf, PInf | Fin _, PInf => true
  | _, _ => false
  end.
(** kit.py L429-444 [np.minimum]: NaN if one side is NaN. *)
Definition emin (a b : ext) : ext :=
  match a, b with NaN, _ | _, NaN => NaN | _, _ => if eltb b a then b else a end.
(** kit.py L446-461 [np.maximum]. *)
Definition emax2 (a b : ext) : ext :=
  match a, b with NaN, _ | _, NaN => NaN | _, _ => if eltb a b then b else a end.
(** kit.py L324-333 [x.clip(lower, upper)]: NaN stays NaN. *)
Definition eclip (lower upper : option Q) (a : ext) : ext :=
  let a := match lower with Some l => if eltb a (Fin l) then Fin l else a | None => a end in
  match upper with Some u => if eltb (Fin u) a then Fin u else a | None => a end.
(** kit.py L367-373 [x ** 2]. *)
Definition esquare (a : ext) : ext := emul a a.

(** Element-wise binary operation of two columns of the same index (pandas alignment is
    the identity then; base.py L1297, L1407). *)
Definition zipw (g : ext -> ext -> ext) (a b : series) : series := map (fun p => g (fst p) (snd p)) (combine a b).

(* ------------------------------------------------------------------ *)
(** ** Frames *)

(** A DataFrame: columns by name (kit.py L1030-1031). *)
Definition frame := list (string * series).
(** [x[name]] / [name in x.columns] (base.py L1285-1286, kit.py L201-203). *)
Fixpoint get (x : frame) (n : string) : option series :=
  match x with [] => None | (m, s) :: x' => if String.eqb m n then Some s else get x' n end.
(** [df[name] = s] (kit.py L1058-1059): replace the column or append a new one. *)
Fixpoint put (x : frame) (n : string) (s : series) : frame :=
  match x with
  | [] => [(n, s)]
  | (m, v) :: x' => if String.eqb m n then (n, s) :: x' else (m, v) :: put x' n s
  end.

(* ------------------------------------------------------------------ *)
(** ** Transforms *)

(** base.py L246-252: pandas or numba. *)
Inductive backend := PD | NB.

(** A SISO or MISO transform (base.py L335-501, L504-715): required columns, produced
    name and the computation of the chosen backend on the required columns. *)
Record core := mkCore { c_siso : bool; c_req : list string; c_prod : string;
                        c_fun : backend -> list series -> result series }.

(** base.py L486-492 (SISO: input name, underscore, produced name), L700-706 (MISO). *)
Definition c_out (c : core) : string :=
  if c_siso c then (hd EmptyString (c_req c) ++ "_" ++ c_prod c)%string else c_prod c.

(** base.py L470-475, L683-689 [_validate_input] and L226-252 [__call__]. *)
Definition core_call (b : backend) (x : frame) (c : core) : result series :=
  match collect (map (fun n => match get x n with Some s => Ok s | None => Raise ValueError end) (c_req c)) with
  | Ok cols => c_fun c b cols
  | Raise e => Raise e
  end.

(** A scalar operand with its printed form (it becomes part of the name, base.py L1305). *)
Record const := mkConst { k_val : ext; k_str : string }.

(** base.py L1257-1409 and Compose (kit.py L637-721, steps are SISO or MISO transforms as
    annotated). [Unary _ _ _ (Some n)] is a UnaryOpTransform whose produced name was
    replaced by [Feature.apply] (kit.py L265). *)
Inductive trans :=
| Leaf (c : core)
| Binary (l r : trans) (op : string) (g : series -> series -> series)
| MinMax (l r : trans) (op : string) (g : series -> series -> series)
| Const (t : trans) (c : const) (op : string) (g : series -> ext -> series)
| Unary (t : trans) (op : string) (g : series -> series) (renamed : option string)
| Compose (first : core) (rest : list core).

(** Output names: base.py L1262, L1305, L1338, L1372; kit.py L639-641 and L657-664. *)
Fixpoint out_name (t : trans) : string :=
  match t with
  | Leaf c => c_out c
  | Binary l r op _ | MinMax l r op _ => (op ++ "(" ++ out_name l ++ "," ++ out_name r ++ ")")%string
  | Const t c op _ => (op ++ "(" ++ out_name t ++ "," ++ k_str c ++ ")")%string
  | Unary t op _ None => (op ++ "(" ++ out_name t ++ ")")%string
  | Unary _ _ _ (Some n) => n
  | Compose f rest => fold_left (fun acc c => (acc ++ "_" ++ c_prod c)%string) rest (c_out f)
  end.

(** kit.py L683-705: one step of the pipeline. [cur] is the result of the step before
    (None before the first step). *)
Definition compose_step (b : backend) (x : frame) (cur : option series) (c : core) : result series :=
  match get x (c_prod c) with
  | Some s => Ok s
  | None =>
      match cur with
      | None => core_call b x c
      | Some s =>
          let req := hd EmptyString (c_req c) in
          match get x req with
          | Some v => core_call b [(req, v)] c
          | None => core_call b [(req, s)] c
          end
      end
  end.
(** kit.py L683-705: the loop over the later steps. *)
Fixpoint compose_loop (b : backend) (x : frame) (cur : series) (rest : list core) : result series :=
  match rest with
  | [] => Ok cur
  | c :: rest' => match compose_step b x (Some cur) c with Ok s => compose_loop b x s rest' | Raise e => Raise e end
  end.
(** kit.py L644-655 (validation of the first required column), L676-709. *)
Definition compose_call (b : backend) (x : frame) (f : core) (rest : list core) : result series :=
  match get x (hd EmptyString (c_req f)) with
  | None => Raise ValueError
  | Some _ =>
      match get x (out_name (Compose f rest)) with
      | Some s => Ok s
      | None => match compose_step b x None f with Ok s => compose_loop b x s rest | Raise e => Raise e end
      end
  end.

(** [__call__]: base.py L226-252, L1283-1299, L1320-1332, L1352-1364, L1393-1409; kit.py
    L711-721. An operand is taken from the frame if a column has its output name. *)
Fixpoint call (b : backend) (x : frame) (t : trans) : result series :=
  let operand u := match get x (out_name u) with Some s => Ok s | None => call b x u end in
  match t with
  | Leaf c => core_call b x c
  | Binary l r _ g | MinMax l r _ g =>
      match get x (out_name t) with
      | Some s => Ok s
      | None => match operand l with
                | Ok a => match operand r with Ok v => Ok (g a v) | Raise e => Raise e end
                | Raise e => Raise e
                end
      end
  | Const u c _ g =>
      match get x (out_name t) with
      | Some s => Ok s
      | None => match operand u with Ok a => Ok (g a (k_val c)) | Raise e => Raise e end
      end
  | Unary u _ g _ =>
      match get x (out_name t) with
      | Some s => Ok s
      | None => match operand u with Ok a => Ok (g a) | Raise e => Raise e end
      end
  | Compose f rest => compose_call b x f rest
  end.

(* ------------------------------------------------------------------ *)
(** ** Feature operators *)

(** A feature expression as a user writes it with the operators of [Feature] (kit.py
    L240-461). *)
Inductive fexpr :=
| FCore (c : core)
| FAdd (a b : fexpr) | FSub (a b : fexpr) | FMul (a b : fexpr) | FDiv (a b : fexpr)
| FMin (a b : fexpr) | FMax (a b : fexpr)
| FAddC (a : fexpr) (c : const) | FSubC (a : fexpr) (c : const) | FMulC (a : fexpr) (c : const) | FDivC (a : fexpr) (c : const)
| FRSub (c : const) (a : fexpr) | FRDiv (c : const) (a : fexpr)
| FMinC (a : fexpr) (c : const) | FMaxC (a : fexpr) (c : const)
| FAbs (a : fexpr)
| FApply (a : fexpr) (suffix : string) (g : series -> series).

(** kit.py L240-268 [apply]: the name is that of the operand, underscore, suffix (features
    keep the name of their transform unless it is set by the user, kit.py L194-196). The
    operators: L271-321, [abs] L335-341, [min], [max] L429-461. *)
Fixpoint build (e : fexpr) : trans :=
  match e with
  | FCore c => Leaf c
  | FAdd a b => Binary (build a) (build b) "add" (zipw eadd)
  | FSub a b => Binary (build a) (build b) "sub" (zipw esub)
  | FMul a b => Binary (build a) (build b) "mul" (zipw emul)
  | FDiv a b => Binary (build a) (build b) "div" (zipw edivide)
  | FMin a b => MinMax (build a) (build b) "min" (zipw emin)
  | FMax a b => MinMax (build a) (build b) "max" (zipw emax2)
  | FAddC a c => Const (build a) c "add" (fun s k => map (fun v => eadd v k) s)
  | FSubC a c => Const (build a) c "sub" (fun s k => map (fun v => esub v k) s)
  | FMulC a c => Const (build a) c "mul" (fun s k => map (fun v => emul v k) s)
  | FDivC a c => Const (build a) c "div" (fun s k => map (fun v => edivide v k) s)
  | FRSub c a => Const (build a) c "rsub" (fun s k => map (fun v => esub k v) s)
  | FRDiv c a => Const (build a) c "rdiv" (fun s k => map (fun v => edivide k v) s)
  | FMinC a c => Const (build a) c "min" (fun s k => map (fun v => emin v k) s)
  | FMaxC a c => Const (build a) c "max" (fun s k => map (fun v => emax2 v k) s)
  | FAbs a => Unary (build a) "abs" (map eabs) None
  | FApply a suffix g => Unary (build a) suffix g (Some (out_name (build a) ++ "_" ++ suffix)%string)
  end.

(* ------------------------------------------------------------------ *)
(** ** FeatureKit *)

(** kit.py L194-228: a feature is a transform with a (possibly user-set) name. *)
Record feat := mkFeat { f_name : string; f_t : trans }.

(** kit.py L198-204 [Feature.__call__] with [cache = x]. *)
Definition feat_call (b : backend) (x : frame) (f : feat) : result series :=
  match get x (out_name (f_t f)) with Some s => Ok s | None => call b x (f_t f) end.

(** kit.py L1045-1066: loop over the features; (out, df). *)
Fixpoint build_loop (b : backend) (out df : frame) (fs : list feat) : result frame :=
  match fs with
  | [] => Ok out
  | f :: fs' =>
      match feat_call b df f with
      | Raise e => Raise e
      | Ok s => build_loop b (put out (f_name f) s) (put df (out_name (f_t f)) s) fs'
      end
  end.
(** kit.py L1030 [df[self.retain].copy()]. *)
Fixpoint retained (df : frame) (names : list string) : result frame :=
  match names with
  | [] => Ok []
  | n :: ns => match get df n with
               | None => Raise KeyError
               | Some s => match retained df ns with Ok r => Ok ((n, s) :: r) | Raise e => Raise e end
               end
  end.
(** kit.py L1014-1066 [FeatureKit.build], order = "defined". *)
Definition kit_build (b : backend) (retain : list string) (df : frame) (fs : list feat) : result frame :=
  match retained df retain with
  | Raise e => Raise e
  | Ok out => build_loop b out df fs
  end.
