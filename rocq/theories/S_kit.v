(** S_kit.v -- specification of feature expressions: the value of an expression in one
    row, given the values of its leaves. *)
From Coq Require Import String.
From Verif Require Import Base M_kit.
Open Scope Q_scope.

(** Value of an expression in row i, over n rows ([FApply] sees the whole column). *)
Fixpoint row_val (n : nat) (leaf : core -> nat -> ext) (e : fexpr) (i : nat) : ext :=
  match e with
  | FCore c => leaf c i
  | FAdd a b => eadd (row_val n leaf a i) (row_val n leaf b i)
  | FSub a b => esub (row_val n leaf a i) (row_val n leaf b i)
  | FMul a b => emul (row_val n leaf a i) (row_val n leaf b i)
  | FDiv a b => edivide (row_val n leaf a i) (row_val n leaf b i)
  | FMin a b => emin (row_val n leaf a i) (row_val n leaf b i)
  | FMax a b => emax2 (row_val n leaf a i) (row_val n leaf b i)
  | FAddC a c => eadd (row_val n leaf a i) (k_val c)
  | FSubC a c => esub (row_val n leaf a i) (k_val c)
  | FMulC a c => emul (row_val n leaf a i) (k_val c)
  | FDivC a c => edivide (row_val n leaf a i) (k_val c)
  | FRSub c a => esub (k_val c) (row_val n leaf a i)
  | FRDiv c a => edivide (k_val c) (row_val n leaf a i)
  | FMinC a c => emin (row_val n leaf a i) (k_val c)
  | FMaxC a c => emax2 (row_val n leaf a i) (k_val c)
  | FAbs a => eabs (row_val n leaf a i)
  | FApply a _ g => nth i (g (map (row_val n leaf a) (seq 0 n))) NaN
  end.

(** Exact rational value of an expression of finite leaves and constants; None for a
    division by zero, a non-finite constant or an arbitrary function. *)
Definition lift2 (g : Q -> Q -> option Q) (a b : option Q) : option Q :=
  match a, b with Some x, Some y => g x y | _, _ => None end.
Definition kq (c : const) : option Q := match k_val c with Fin q => Some q | _ => None end.
Definition qdivide (x y : Q) : option Q := if Qeq_bool y 0 then None else Some (x / y).
Definition some2 (g : Q -> Q -> Q) (x y : Q) : option Q := Some (g x y).
Fixpoint q_val (leaf : core -> Q) (e : fexpr) : option Q :=
  match e with
  | FCore c => Some (leaf c)
  | FAdd a b => lift2 (some2 Qplus) (q_val leaf a) (q_val leaf b)
  | FSub a b => lift2 (some2 Qminus) (q_val leaf a) (q_val leaf b)
  | FMul a b => lift2 (some2 Qmult) (q_val leaf a) (q_val leaf b)
  | FDiv a b => lift2 qdivide (q_val leaf a) (q_val leaf b)
  | FMin a b => lift2 (some2 Qmin) (q_val leaf a) (q_val leaf b)
  | FMax a b => lift2 (some2 Qmax) (q_val leaf a) (q_val leaf b)
  | FAddC a c => lift2 (some2 Qplus) (q_val leaf a) (kq c)
  | FSubC a c => lift2 (some2 Qminus) (q_val leaf a) (kq c)
  | FMulC a c => lift2 (some2 Qmult) (q_val leaf a) (kq c)
  | FDivC a c => lift2 qdivide (q_val leaf a) (kq c)
  | FRSub c a => lift2 (some2 Qminus) (kq c) (q_val leaf a)
  | FRDiv c a => lift2 qdivide (kq c) (q_val leaf a)
  | FMinC a c => lift2 (some2 Qmin) (q_val leaf a) (kq c)
  | FMaxC a c => lift2 (some2 Qmax) (q_val leaf a) (kq c)
  | FAbs a => option_map Qabs (q_val leaf a)
  | FApply _ _ _ => None
  end.

(** Direct operands of an expression, and occurrence as a part. *)
Definition operands (e : fexpr) : list fexpr :=
  match e with
  | FCore _ => []
  | FAdd a b | FSub a b | FMul a b | FDiv a b | FMin a b | FMax a b => [a; b]
  | FAddC a _ | FSubC a _ | FMulC a _ | FDivC a _ | FRSub _ a | FRDiv _ a | FMinC a _ | FMaxC a _ | FAbs a | FApply a _ _ => [a]
  end.
Inductive part_of : fexpr -> fexpr -> Prop :=
| part_self e : part_of e e
| part_down u a e : In a (operands e) -> part_of u a -> part_of u e.

(** Value of a transform on the raw columns alone: no column is looked up except the
    required ones (and the ones a pipeline consults). *)
Fixpoint den (b : backend) (x : frame) (t : trans) : result series :=
  match t with
  | Leaf c => core_call b x c
  | Binary l r _ g | MinMax l r _ g =>
      match den b x l, den b x r with Ok a, Ok v => Ok (g a v) | Raise e, _ => Raise e | _, Raise e => Raise e end
  | Const u c _ g => match den b x u with Ok a => Ok (g a (k_val c)) | Raise e => Raise e end
  | Unary u _ g _ => match den b x u with Ok a => Ok (g a) | Raise e => Raise e end
  | Compose f rest => compose_call b x f rest
  end.
(** Transforms occurring in a transform. *)
Fixpoint nodes (t : trans) : list trans :=
  t :: match t with
       | Leaf _ | Compose _ _ => []
       | Binary l r _ _ | MinMax l r _ _ => nodes l ++ nodes r
       | Const u _ _ _ | Unary u _ _ _ => nodes u
       end.
(** Column names a pipeline looks up besides its first input. *)
Definition compose_names (t : trans) : list string :=
  match t with
  | Compose f rest => c_prod f :: flat_map (fun c => [c_prod c; hd EmptyString (c_req c)]) rest
  | _ => []
  end.

(** Feed the result of each step into the only input of the next one. *)
Fixpoint pipeline (b : backend) (cur : series) (rest : list core) : result series :=
  match rest with
  | [] => Ok cur
  | c :: rest' => match c_fun c b [cur] with Ok s => pipeline b s rest' | Raise e => Raise e end
  end.
