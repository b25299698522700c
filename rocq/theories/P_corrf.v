(** P_corrf.v -- errors of the price/volume correlation in float64. *)
From Coq Require Import Qround Qpower Qfield.
From Verif Require Import Base M_logic M_bars M_features M_volume M_volat M_float M_float2 M_float3 M_float7 M_float8 S_logic S_features S_volat S_float S_sumf.
From Verif Require Import P_weights P_features P_features2 P_volat P_float P_float2 P_float9 P_float11 P_float12 P_float13 P_sumf P_weightsf P_volatf P_volatf2 P_tbmf P_ewmstf.
Open Scope Q_scope.

Lemma fsum_near_gen {A} (f g G : A -> Q) k l : (forall x, In x l -> near k (f x) (g x) (G x)) ->
  near (k + length l) (fsum (map f l)) (qsum (map g l)) (qsum (map G l)).
Proof.
  induction l as [|x l IH] using rev_ind; intro H.
  - cbn [map]. change (fsum []) with 0. change (qsum []) with 0. apply near_exact. rewrite Qabs_pos; lra.
  - rewrite !map_app. cbn [map]. rewrite fsum_app. rewrite app_length. cbn [length]. replace (k + (length l + 1))%nat with (S (k + length l)) by lia. apply near_rnd.
    eapply near_comp; [reflexivity|symmetry; apply qsum_app2|symmetry; apply qsum_app2|].
    apply near_plus; [apply IH; intros; apply H; apply in_or_app; now left|].
    eapply near_comp; [reflexivity| | |apply (near_le k _ _ _ (G x)); [lia|apply Qle_refl|apply H; apply in_or_app; right; now left]]; cbn; ring.
Qed.
(** Deviation from the mean. *)
Lemma dev_near {A} (f g G : A -> Q) k l : (1 <= length l)%nat -> (forall x, In x l -> near k (f x) (g x) (G x)) -> forall x, In x l ->
  near (k + length l + 2) (dev_f (map f l) (f x)) (g x - mean (map g l)) (G x + mean (map G l)).
Proof.
  intros Hl H x Hx. unfold dev_f, mean. rewrite !map_length. replace (k + length l + 2)%nat with (S (S (k + length l))) by lia.
  assert (N1 := Qnat_ge1 (length l) Hl).
  apply near_rnd, near_minus; [apply (near_le k _ _ _ (G x)); [lia|lra|now apply H]|].
  apply near_rnd, near_div; [lra|]. now apply fsum_near_gen.
Qed.
(** Sum of the products of two deviations. *)
Lemma cross_near {A} (f g G f' g' G' : A -> Q) k k' l : (1 <= length l)%nat ->
  (forall x, In x l -> near k (f x) (g x) (G x)) -> (forall x, In x l -> near k' (f' x) (g' x) (G' x)) ->
  near (k + k' + 3 * length l + 5) (fsum (map (fun x => r53 (dev_f (map f l) (f x) * dev_f (map f' l) (f' x))) l))
    (qsum (map (fun x => (g x - mean (map g l)) * (g' x - mean (map g' l))) l))
    (qsum (map (fun x => (G x + mean (map G l)) * (G' x + mean (map G' l))) l)).
Proof.
  intros Hl H H'. replace (k + k' + 3 * length l + 5)%nat with (S (k + length l + 2 + (k' + length l + 2)) + length l)%nat by lia.
  apply fsum_near_gen. intros x Hx. apply near_rnd, near_mult; now apply dev_near.
Qed.
Lemma combine_map2 {A B C} (f : A -> B) (g : A -> C) l : combine (map f l) (map g l) = map (fun x => (f x, g x)) l.
Proof. induction l as [|x l IH]; [reflexivity|]. cbn [map combine]. now rewrite IH. Qed.
Lemma cross_map {A} (f g : A -> Q) l : cross (map f l) (map g l) = qsum (map (fun x => (f x - mean (map f l)) * (g x - mean (map g l))) l).
Proof. unfold cross. rewrite combine_map2, map_map. reflexivity. Qed.
(** Magnitude of the terms of [cross]. *)
Lemma pv_return_f_near price j : match pv_return_f price j, pv_return price j with
  | Some a, Some x => near 2 a x (Qabs x) | None, None => True | _, _ => False end.
Proof.
  destruct j as [|j]; [exact I|]. cbn [pv_return_f pv_return]. destruct (nth (S j) price None) as [p|]; [|exact I]. destruct (nth (S j - 1) price None) as [b|]; [|exact I].
  destruct (Qeqb_spec b 0) as [K|K]; [exact I|].
  assert (E : Qabs ((p - b) / b) == Qabs (p - b) / Qabs b).
  { unfold Qdiv. now rewrite Qabs_Qmult, Qabs_Qinv. }
  assert (B0 : 0 < Qabs b) by (destruct (Qlt_le_dec 0 (Qabs b)) as [L|L]; [exact L|exfalso; apply K; destruct (Qabs_case_or b) as [[? ?]|[? ?]]; lra]).
  apply near_rnd. assert (N := near_rnd 0 _ _ _ (near_self (p - b))).
  eapply near_comp; [| |symmetry; exact E|].
  - instantiate (1 := (if Qlt_le_dec 0 b then r53 (p - b) else - r53 (p - b)) / Qabs b).
    destruct (Qlt_le_dec 0 b) as [L|L]; [rewrite (Qabs_pos b) by lra; reflexivity|]. rewrite (Qabs_neg b) by lra. field. intro Z0. apply K. lra.
  - instantiate (1 := (if Qlt_le_dec 0 b then (p - b) else - (p - b)) / Qabs b).
    destruct (Qlt_le_dec 0 b) as [L|L]; [rewrite (Qabs_pos b) by lra; reflexivity|]. rewrite (Qabs_neg b) by lra. field. intro Z0. apply K. lra.
  - apply near_div; [exact B0|]. destruct (Qlt_le_dec 0 b); [exact N|]. now apply near_opp.
Qed.
(** The valid pairs of the exact and of the rounded computation side by side: (rounded return, return, volume). *)
Lemma valid_pairs_f_tri price volume i n : exists l : list (Q * Q * Q),
  valid_pairs_f price volume i n = map (fun t => (fst (fst t), snd t)) l /\
  valid_pairs price volume i n = map (fun t => (snd (fst t), snd t)) l /\
  (forall t, In t l -> near 2 (fst (fst t)) (snd (fst t)) (Qabs (snd (fst t)))).
Proof.
  unfold valid_pairs_f, valid_pairs. induction (seq (i + 1 - n) n) as [|j s IH]; [exists []; split; [reflexivity|split; [reflexivity|intros t []]]|].
  destruct IH as (l & E1 & E2 & E3). cbn [flat_map]. pose proof (pv_return_f_near price j) as P.
  destruct (pv_return_f price j) as [a|], (pv_return price j) as [x|]; try contradiction.
  - destruct (nth j volume None) as [v|].
    + exists ((a, x, v) :: l). rewrite E1, E2. split; [reflexivity|]. split; [reflexivity|]. intros t [<-|Ht]; [exact P|now apply E3].
    + exists l. rewrite E1, E2. split; [reflexivity|]. split; [reflexivity|exact E3].
  - exists l. rewrite E1, E2. split; [reflexivity|]. split; [reflexivity|exact E3].
Qed.
(** A sum of rounded squares is zero only if every term is. *)
Lemma fsum_sq_zero {A} (f : A -> Q) l : 0 <= fsum (map (fun x => r53 (f x * f x)) l) /\
  (fsum (map (fun x => r53 (f x * f x)) l) == 0 <-> forall x, In x l -> f x == 0).
Proof.
  assert (P : forall y, In y (map (fun x => r53 (f x * f x)) l) -> 0 <= y).
  { intros y Hy. apply in_map_iff in Hy. destruct Hy as (x & <- & _). apply r53_nonneg. destruct (Qlt_le_dec (f x) 0); nra. }
  split; [now apply fsum_nonneg|]. rewrite fsum_zero by exact P. split; intro H.
  - intros x Hx. assert (E := H (r53 (f x * f x)) ltac:(apply in_map_iff; exists x; auto)). apply (proj1 (r53_zero _)) in E. destruct (Qmult_integral _ _ E); auto.
  - intros y Hy. apply in_map_iff in Hy. destruct Hy as (x & <- & Hx). apply r53_zero. rewrite (H x Hx). ring.
Qed.
Lemma dev_f_zero l x : dev_f l x == 0 <-> x == mean_f l.
Proof. unfold dev_f. fold (mean_f l). rewrite r53_zero. split; intro; lra. Qed.
