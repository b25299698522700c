(** S_names.v -- specification side of C153 and C154: which transform objects are named
    after all their parameters, and when two feature expressions are the same. *)
From Coq Require Import String Ascii.
From Verif Require Import Base M_kit M_names.

(** The characters of a string. *)
Fixpoint chars (s : string) : list ascii :=
  match s with EmptyString => [] | String c r => c :: chars r end.
(** A digit or a minus sign. *)
Definition numeric (c : ascii) : Prop := In c (chars "0123456789-").
(** Printing of floats: different floats print differently, the text starts like a number
    and has no underscore. *)
Definition prints {flt : Type} (frepr : flt -> string) : Prop :=
  (forall a b, frepr a = frepr b -> a = b) /\
  (forall a, exists c r, chars (frepr a) = c :: r /\ numeric c) /\
  (forall a, ~ In "_"%char (chars (frepr a))).

(** Classes with one number and one input column, both shown in the name. *)
Definition plain {flt : Type} (t : tobj flt) : bool :=
  match t with
  | TLag _ _ | TROC _ _ | TPctChange _ _ | TRSI _ _ | TEWMST _ _ | TBurst _ _ | TSMA _ _ | TEWMA _ _ | THurst _ _ => true
  | _ => false
  end.

(** Leaves and constants of a feature expression without [apply]. *)
Fixpoint leaves (e : fexpr) : list core :=
  match e with
  | FCore c => [c]
  | FAdd a b | FSub a b | FMul a b | FDiv a b | FMin a b | FMax a b => leaves a ++ leaves b
  | FAddC a _ | FSubC a _ | FMulC a _ | FDivC a _ | FRSub _ a | FRDiv _ a | FMinC a _ | FMaxC a _ | FAbs a | FApply a _ _ => leaves a
  end.
Fixpoint constants (e : fexpr) : list const :=
  match e with
  | FCore _ => []
  | FAdd a b | FSub a b | FMul a b | FDiv a b | FMin a b | FMax a b => constants a ++ constants b
  | FAddC a k | FSubC a k | FMulC a k | FDivC a k | FRSub k a | FRDiv k a | FMinC a k | FMaxC a k => k :: constants a
  | FAbs a | FApply a _ _ => constants a
  end.
Fixpoint no_apply (e : fexpr) : bool :=
  match e with
  | FCore _ => true
  | FAdd a b | FSub a b | FMul a b | FDiv a b | FMin a b | FMax a b => no_apply a && no_apply b
  | FAddC a _ | FSubC a _ | FMulC a _ | FDivC a _ | FRSub _ a | FRDiv _ a | FMinC a _ | FMaxC a _ | FAbs a => no_apply a
  | FApply _ _ _ => false
  end.
(** Text without parentheses and commas. *)
Definition simple_text (s : string) : Prop :=
  ~ In "("%char (chars s) /\ ~ In ")"%char (chars s) /\ ~ In ","%char (chars s).

(** The same operators applied to leaves of the same names and constants of the same text. *)
Inductive alike : fexpr -> fexpr -> Prop :=
| al_core c d : c_out c = c_out d -> alike (FCore c) (FCore d)
| al_add a b a' b' : alike a a' -> alike b b' -> alike (FAdd a b) (FAdd a' b')
| al_sub a b a' b' : alike a a' -> alike b b' -> alike (FSub a b) (FSub a' b')
| al_mul a b a' b' : alike a a' -> alike b b' -> alike (FMul a b) (FMul a' b')
| al_div a b a' b' : alike a a' -> alike b b' -> alike (FDiv a b) (FDiv a' b')
| al_min a b a' b' : alike a a' -> alike b b' -> alike (FMin a b) (FMin a' b')
| al_max a b a' b' : alike a a' -> alike b b' -> alike (FMax a b) (FMax a' b')
| al_addc a k a' k' : alike a a' -> k_str k = k_str k' -> alike (FAddC a k) (FAddC a' k')
| al_subc a k a' k' : alike a a' -> k_str k = k_str k' -> alike (FSubC a k) (FSubC a' k')
| al_mulc a k a' k' : alike a a' -> k_str k = k_str k' -> alike (FMulC a k) (FMulC a' k')
| al_divc a k a' k' : alike a a' -> k_str k = k_str k' -> alike (FDivC a k) (FDivC a' k')
| al_rsub a k a' k' : alike a a' -> k_str k = k_str k' -> alike (FRSub k a) (FRSub k' a')
| al_rdiv a k a' k' : alike a a' -> k_str k = k_str k' -> alike (FRDiv k a) (FRDiv k' a')
| al_minc a k a' k' : alike a a' -> k_str k = k_str k' -> alike (FMinC a k) (FMinC a' k')
| al_maxc a k a' k' : alike a a' -> k_str k = k_str k' -> alike (FMaxC a k) (FMaxC a' k')
| al_abs a a' : alike a a' -> alike (FAbs a) (FAbs a').
