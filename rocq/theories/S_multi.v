(** S_multi.v -- columns a feature looks at and columns it writes. *)
From Coq Require Import String.
From Verif Require Import Base M_kit M_multi.

(** Columns whose presence or values may matter for the value of a transform. *)
Fixpoint looks_at (t : trans) : list string :=
  match t with
  | Leaf c => c_req c
  | Binary l r _ _ | MinMax l r _ _ => out_name t :: out_name l :: out_name r :: looks_at l ++ looks_at r
  | Const u _ _ _ | Unary u _ _ _ => out_name t :: out_name u :: looks_at u
  | Compose f rest => out_name t :: hd EmptyString (c_req f) :: c_req f ++ c_prod f :: flat_map (fun c => [c_prod c; hd EmptyString (c_req c)]) rest
  end.
Definition mlooks_at (t : mtrans) : list string :=
  match t with
  | TOne t => out_name t :: looks_at t
  | TMany c => m_req c
  | TExt e => e_prod e ++ e_req e
  end.
(** Names under which a feature caches its result in the working frame. *)
Definition caches (t : mtrans) : list string :=
  match t with TOne t => [out_name t] | TMany c => m_names c | TExt e => e_prod e end.
(** Names of the columns a feature may add to the result. *)
Definition adds (f : mfeat) : list string :=
  match mf_t f with
  | TMany c => m_names c
  | t => caches t ++ match mf_name f with NStr n => [n] | NList _ => [] end
  end.
