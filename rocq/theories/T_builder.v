(** T_builder.v -- theorems on the bar builders (C125-C128). *)
From Coq Require Import Sorted.
From Verif Require Import Base M_logic M_bars M_footprint M_trades M_fpdata M_builder S_builder S_logic S_bars S_fpdata P_bars P_footprint T_logic T_bars T_footprint.
Open Scope Z_scope.

(* ------------------------------------------------------------------ *)
(** ** The fill of sigma *)

Lemma ffill_length {A} (p : option A) l : length (ffill p l) = length l.
Proof. revert p. induction l as [|[x|] l IH]; intro p; cbn; congruence. Qed.
Lemma ffill_all {A} (p : option A) l : (forall x, In x l -> x <> None) -> ffill p l = l.
Proof.
  revert p. induction l as [|[x|] l IH]; intros p H; cbn; [reflexivity| |].
  - f_equal. apply IH. intros y Hy. apply H. now right.
  - exfalso. apply (H None); [now left|reflexivity].
Qed.
Lemma ffill_some {A} (x : A) l y : In y (ffill (Some x) l) -> y <> None.
Proof.
  revert x. induction l as [|[z|] l IH]; intros x; cbn; [tauto| |]; intros [<-|H]; try discriminate; eauto.
Qed.
Lemma first_some_split {A} (l : list (option A)) f : first_some l = Some f ->
  exists x r, l = repeat None f ++ Some x :: r.
Proof.
  revert f. induction l as [|[x|] l IH]; intros f; cbn; [discriminate| |].
  - intro E. injection E as <-. exists x, l. reflexivity.
  - destruct (first_some l) as [k|]; [|discriminate]. intro E. injection E as <-.
    destruct (IH k eq_refl) as [x [r ->]]. exists x, r. reflexivity.
Qed.
Lemma first_some_repeat {A} f (x : A) r : first_some (repeat None f ++ Some x :: r) = Some f.
Proof. induction f as [|f IH]; cbn; [reflexivity|]. now rewrite IH. Qed.
Lemma first_some_none {A} (l : list (option A)) : first_some l = None -> l = repeat None (length l).
Proof.
  induction l as [|[x|] l IH]; cbn; [reflexivity|discriminate|]. destruct (first_some l); [discriminate|]. intro H. f_equal. auto.
Qed.

Lemma fill_shape sigma : match first_some sigma with
  | Some f => exists x r, sigma = repeat None f ++ Some x :: r /\ fill_sigma sigma = repeat None f ++ Some x :: ffill (Some x) r
  | None => fill_sigma sigma = sigma end.
Proof.
  destruct (first_some sigma) as [f|] eqn:E.
  - destruct (first_some_split _ _ E) as [x [r ->]]. exists x, r. split; [reflexivity|].
    unfold fill_sigma, first_non_nan. rewrite E. rewrite firstn_app, skipn_app, repeat_length, Nat.sub_diag.
    cbn [firstn skipn]. rewrite app_nil_r. rewrite firstn_all2, skipn_all2 by (rewrite repeat_length; lia). cbn [app].
    f_equal.
  - pose proof (first_some_none _ E) as N. unfold fill_sigma, first_non_nan. rewrite E. cbn [firstn skipn app].
    rewrite N. generalize (length sigma) as m. intro m.
    assert (L : last (repeat (@None Q) m) None = None).
    { induction m as [|m IH]; [reflexivity|]. cbn [repeat]. destruct m; [reflexivity|exact IH]. }
    rewrite L. clear. induction m as [|m IH]; cbn; [reflexivity|now rewrite IH].
Qed.
Lemma fill_first sigma : first_some (fill_sigma sigma) = first_some sigma.
Proof.
  pose proof (fill_shape sigma) as H. destruct (first_some sigma) as [f|] eqn:E.
  - destruct H as [x [r [_ ->]]]. apply first_some_repeat.
  - now rewrite H.
Qed.
Lemma fill_length sigma : length (fill_sigma sigma) = length sigma.
Proof.
  pose proof (fill_shape sigma) as H. destruct (first_some sigma) as [f|] eqn:E.
  - destruct H as [x [r [H ->]]]. rewrite H. rewrite !app_length. cbn [length]. now rewrite ffill_length.
  - now rewrite H.
Qed.
Lemma fill_idem sigma : fill_sigma (fill_sigma sigma) = fill_sigma sigma.
Proof.
  pose proof (fill_shape sigma) as H. pose proof (fill_shape (fill_sigma sigma)) as K. rewrite fill_first in K.
  destruct (first_some sigma) as [f|] eqn:E.
  - destruct H as [x [r [H1 H2]]]. destruct K as [y [s [K1 K2]]]. rewrite K2.
    rewrite H2 in K1 |- *. apply app_inv_head in K1. injection K1 as <- <-. do 2 f_equal.
    apply ffill_all. intros z Hz. eapply ffill_some; eauto.
  - rewrite H in K. now rewrite H.
Qed.

Section B.
  Variable ln log1p : Q -> Q.
  Notation comp := (comp_bar_close ln).
  Notation exec := (exec ln log1p).
  Notation after := (after ln log1p).

  Lemma comp_again k t : comp (snd (comp k t)) t = comp k t.
  Proof.
    destruct k as [iv|n|thr|thr|sigma flr mult]; try reflexivity. cbn [comp_bar_close].
    assert (LC : cusum_len_check (t_ts t) (t_px t) (fill_sigma sigma) = cusum_len_check (t_ts t) (t_px t) sigma)
      by (unfold cusum_len_check; now rewrite fill_length).
    destruct (cusum_len_check (t_ts t) (t_px t) sigma) eqn:E; cbn [snd comp_bar_close].
    - rewrite LC. unfold cusum_bar_indexer, first_non_nan. now rewrite fill_first, fill_idem.
    - now rewrite E.
  Qed.
  Lemma comp_lengths k t cts cix : fst (comp k t) = Ok (cts, cix) -> length cts = length cix.
  Proof.
    assert (G : forall ts idx, gather ts idx = Ok (cts, cix) -> length cts = length cix).
    { intros ts idx. unfold gather. destruct (forallb _ idx); [|discriminate]. intro E. injection E as <- <-. now rewrite !map_length. }
    destruct k as [iv|n|thr|thr|sigma flr mult]; cbn [comp_bar_close fst]; eauto.
    - unfold time_bar_indexer. intro E. injection E as <- <-. now rewrite map_length.
    - destruct (cusum_len_check _ _ _); cbn [fst]; [eauto|discriminate].
  Qed.
  Lemma comp_freq k t ix : freq_ok (snd (comp k t)) ix = freq_ok k ix.
  Proof. destruct k; cbn; try reflexivity. now destruct (cusum_len_check _ _ _). Qed.

  (** The clock of a time bar builder is evenly spaced (pandas accepts its frequency). *)
  Definition regular (k : kit) (t : trades) : Prop :=
    forall cts cix, fst (comp k t) = Ok (cts, cix) -> freq_ok k (tl cts) = true.

  Definition inv (k : kit) (t : trades) (b : builder) : Prop :=
    bd_tr b = t /\ comp (bd_kit b) t = comp k t /\
    match bd_close b with
    | None => bd_hl b = None
    | Some c => fst (comp k t) = Ok c /\ bd_kit b = snd (comp k t) /\
        (bd_hl b = None \/ exists bars, comp_bar_ohlcv (t_px t) (t_am t) (snd c) = Ok bars /\ bd_hl b = Some (map b_high bars, map b_low bars))
    end.

  Lemma inv_fresh k t : inv k t (fresh k t).
  Proof. repeat split. Qed.

  Lemma set_close_inv k t b : inv k t b ->
    fst (set_close ln b) = fst (comp k t) /\ inv k t (snd (set_close ln b)) /\
    (forall c, fst (comp k t) = Ok c -> bd_close (snd (set_close ln b)) = Some c /\ bd_kit (snd (set_close ln b)) = snd (comp k t)) /\
    bd_hl (snd (set_close ln b)) = bd_hl b.
  Proof.
    intros [T [C H]]. unfold set_close. destruct (bd_close b) as [c|] eqn:E.
    - destruct H as [H1 [H2 H3]]. cbn [fst snd]. split; [congruence|]. split; [|split; [|reflexivity]].
      + split; [exact T|]. split; [exact C|]. rewrite E. auto.
      + intros c' E'. rewrite H1 in E'. injection E' as <-. auto.
    - rewrite T, C. destruct (comp k t) as [[c|e] k'] eqn:EC; cbn [fst snd bd_close bd_kit bd_hl].
      + split; [reflexivity|]. split; [|split; [|reflexivity]].
        * unfold inv. cbn [bd_tr bd_kit bd_close bd_hl]. rewrite EC. cbn [fst snd].
          split; [reflexivity|]. split; [pose proof (comp_again k t) as CA; rewrite EC in CA; exact CA|]. auto.
        * intros c' E'. injection E' as <-. auto.
      + split; [reflexivity|]. split; [|split; [discriminate|reflexivity]].
        unfold inv. cbn [bd_tr bd_kit bd_close bd_hl]. rewrite EC. cbn [fst snd].
        split; [reflexivity|]. split; [pose proof (comp_again k t) as CA; rewrite EC in CA; exact CA|exact H].
  Qed.

  Lemma ohlcv_inv k t b : inv k t b -> regular k t ->
    inv k t (snd (build_ohlcv ln b)) /\
    fst (build_ohlcv ln b) =
      match fst (comp k t) with
      | Raise e => Raise e
      | Ok (cts, cix) => match comp_bar_ohlcv (t_px t) (t_am t) cix with Raise e => Raise e | Ok bars => Ok (combine (tl cts) bars) end
      end /\
    (forall cts cix bars, fst (comp k t) = Ok (cts, cix) -> comp_bar_ohlcv (t_px t) (t_am t) cix = Ok bars ->
       bd_hl (snd (build_ohlcv ln b)) = Some (map b_high bars, map b_low bars)).
  Proof.
    intros H R. destruct (set_close_inv k t b H) as [S1 [S2 [S3 S4]]]. unfold build_ohlcv.
    destruct (set_close ln b) as [[[cts cix]|e] b'] eqn:E; cbn [fst snd] in *.
    - rewrite <- S1. symmetry in S1. destruct (S3 _ S1) as [S5 S6]. destruct S2 as [T [C S2]]. rewrite T.
      destruct (comp_bar_ohlcv (t_px t) (t_am t) cix) as [bars|e] eqn:EO.
      + pose proof (proj1 (api_length _ _ _) _ EO) as AL. pose proof (comp_lengths _ _ _ _ S1) as CL.
        unfold frame. replace (length (tl cts) =? length bars)%nat with true.
        2:{ symmetry. apply Nat.eqb_eq. destruct cts; cbn in *; lia. }
        cbn [fst snd bd_kit bd_hl]. rewrite S6, comp_freq, (R _ _ S1). split; [|split; [reflexivity|]].
        * unfold inv. cbn [bd_tr bd_kit bd_close bd_hl]. rewrite S5. split; [first [exact T|reflexivity]|]. split; [first [exact C|rewrite <- S6; exact C]|].
          split; [exact S1|]. split; [first [exact S6|reflexivity]|]. right. exists bars. cbn [snd]. auto.
        * intros c1 c2 b2 Eq. injection Eq as <- <-. rewrite EO. intro Eq. injection Eq as <-. reflexivity.
      + cbn [fst snd]. split; [|split; [reflexivity|]].
        * split; [exact T|]. split; [exact C|exact S2].
        * intros c1 c2 b2 Eq. injection Eq as <- <-. rewrite EO. discriminate.
    - rewrite <- S1. split; [exact S2|]. split; [reflexivity|]. discriminate.
  Qed.

  Lemma need_hl_inv k t b cts cix : inv k t b -> regular k t -> fst (comp k t) = Ok (cts, cix) -> bd_close b = Some (cts, cix) ->
    inv k t (snd (need_hl ln b)) /\
    fst (need_hl ln b) = match comp_bar_ohlcv (t_px t) (t_am t) cix with Raise e => Raise e | Ok bars => Ok (map b_high bars, map b_low bars) end.
  Proof.
    intros H R EC EB. unfold need_hl. destruct (bd_hl b) as [hl|] eqn:EH.
    - split; [exact H|]. destruct H as [_ [_ H]]. rewrite EB in H. destruct H as [_ [_ [H|[bars [H1 H2]]]]]; [congruence|].
      cbn [snd] in H1. rewrite H1. cbn [fst]. congruence.
    - destruct (ohlcv_inv k t b H R) as [O1 [O2 O3]]. destruct (build_ohlcv ln b) as [[f|e] b'] eqn:E; cbn [fst snd] in *; rewrite EC in O2.
      + split; [exact O1|]. destruct (comp_bar_ohlcv (t_px t) (t_am t) cix) as [bars|e] eqn:EO; [|discriminate].
        now rewrite (O3 _ _ _ EC EO).
      + split; [exact O1|]. destruct (comp_bar_ohlcv (t_px t) (t_am t) cix) as [bars|e'] eqn:EO; [discriminate|congruence].
  Qed.

  (** What a call returns, as a function of the trades alone. *)
  Definition ideal (k : kit) (t : trades) (c : call) : result reply :=
    match c, k with
    | CSigma, KCusum s _ _ =>
        match fst (comp k t) with
        | Raise e => Raise e
        | Ok (_, cix) =>
            if forallb (fun i => (Z.to_nat i <? length s)%nat) (tl cix)
            then Ok (RSigma (map (fun i => nth (Z.to_nat i) (fill_sigma s) None) (tl cix))) else Raise IndexError
        end
    | CSigma, _ => Raise TypeError
    | _, _ =>
      match fst (comp k t) with
      | Raise e => Raise e
      | Ok (cts, cix) =>
          match c with
          | COhlcv => match comp_bar_ohlcv (t_px t) (t_am t) cix with Raise e => Raise e | Ok bars => Ok (ROhlcv (combine (tl cts) bars)) end
          | CDir => match t_side t with
                    | None => Raise KeyError
                    | Some sd => Ok (RDir (combine (tl cts) (comp_bar_directional (t_px t) (t_am t) sd cix)))
                    end
          | CSize theta mult => match comp_bar_size log1p (t_am t) theta cix mult with
                                | Raise e => Raise e | Ok rows => Ok (RSize (combine (tl cts) rows)) end
          | CFoot tick mult =>
              match comp_bar_ohlcv (t_px t) (t_am t) cix with
              | Raise e => Raise e
              | Ok bars =>
                  match (match tick with Some q => Ok q | None => comp_price_tick_size (t_px t) end) with
                  | Raise e => Raise e
                  | Ok q => match t_side t with
                            | None => Raise KeyError
                            | Some sd => match comp_bar_footprints (t_px t) (t_am t) cix sd q (map b_low bars) (map b_high bars) mult with
                                         | Raise e => Raise e
                                         | Ok l => Ok (RFoot (to_fpdata (tl cts) q l))
                                         end
                            end
                  end
              end
          | CIdx => Ok (RIdx (tl cix))
          | CTs => Ok (RTs (tl cts))
          | CSigma => Raise TypeError
          end
      end
    end.

  Lemma frame_ok {A} cts (cix : list Z) (rows : list A) : length cts = length cix -> length rows = (length cix - 1)%nat ->
    frame cts rows = Ok (combine (tl cts) rows).
  Proof.
    intros H K. unfold frame. replace (length (tl cts) =? length rows)%nat with true; [reflexivity|].
    symmetry. apply Nat.eqb_eq. destruct cts; cbn in *; lia.
  Qed.

  Lemma exec_inv k t b c : inv k t b -> regular k t -> inv k t (snd (exec b c)) /\ fst (exec b c) = ideal k t c.
  Proof.
    intros H R. destruct (set_close_inv k t b H) as [S1 [S2 [S3 S4]]]. destruct c as [| |theta mult|tick mult| | |].
    - destruct (ohlcv_inv k t b H R) as [O1 [O2 _]]. cbn [M_builder.exec tag fst snd]. split; [exact O1|]. rewrite O2. cbn [ideal].
      destruct (fst (comp k t)) as [[cts cix]|e]; [|now destruct k]. destruct k; now destruct (comp_bar_ohlcv _ _ _).
    - cbn [M_builder.exec tag fst snd]. unfold build_directional.
      destruct (set_close ln b) as [[[cts cix]|e] b'] eqn:E; cbn [fst snd] in *.
      + symmetry in S1. pose proof (comp_lengths _ _ _ _ S1) as CL. destruct (proj1 S2).
        assert (I : ideal k (bd_tr b') CDir = match t_side (bd_tr b') with
                    | None => Raise KeyError
                    | Some sd => Ok (RDir (combine (tl cts) (comp_bar_directional (t_px (bd_tr b')) (t_am (bd_tr b')) sd cix))) end)
          by (cbn [ideal]; rewrite S1; now destruct k).
        rewrite I. destruct (t_side (bd_tr b')) as [sd|]; cbn [fst snd]; (split; [exact S2|]); [|reflexivity].
        rewrite (frame_ok cts cix); [reflexivity|exact CL|]. unfold comp_bar_directional. now rewrite map_length, seq_length.
      + split; [exact S2|]. cbn [ideal]. rewrite <- S1. now destruct k.
    - cbn [M_builder.exec tag fst snd]. unfold build_size.
      destruct (set_close ln b) as [[[cts cix]|e] b'] eqn:E; cbn [fst snd] in *.
      + symmetry in S1. pose proof (comp_lengths _ _ _ _ S1) as CL. destruct (proj1 S2).
        assert (I : ideal k (bd_tr b') (CSize theta mult) = match comp_bar_size log1p (t_am (bd_tr b')) theta cix mult with
                                | Raise e => Raise e | Ok rows => Ok (RSize (combine (tl cts) rows)) end)
          by (cbn [ideal]; rewrite S1; now destruct k).
        rewrite I. destruct (comp_bar_size log1p (t_am (bd_tr b')) theta cix mult) as [rows|e] eqn:ES; cbn [fst snd]; (split; [exact S2|]); [|reflexivity].
        rewrite (frame_ok cts cix); [reflexivity|exact CL|]. revert ES. unfold comp_bar_size. destruct (negb _); [discriminate|].
        intro Q0. injection Q0 as <-. now rewrite map_length, seq_length.
      + split; [exact S2|]. cbn [ideal]. rewrite <- S1. now destruct k.
    - cbn [M_builder.exec tag fst snd]. unfold build_footprints.
      destruct (set_close ln b) as [[[cts cix]|e] b'] eqn:E; cbn [fst snd] in *.
      + symmetry in S1. destruct (S3 _ S1) as [S5 S6]. destruct (need_hl_inv k t b' cts cix S2 R S1 S5) as [N1 N2].
        assert (I : ideal k t (CFoot tick mult) =
              match comp_bar_ohlcv (t_px t) (t_am t) cix with
              | Raise e => Raise e
              | Ok bars =>
                  match (match tick with Some q => Ok q | None => comp_price_tick_size (t_px t) end) with
                  | Raise e => Raise e
                  | Ok q => match t_side t with
                            | None => Raise KeyError
                            | Some sd => match comp_bar_footprints (t_px t) (t_am t) cix sd q (map b_low bars) (map b_high bars) mult with
                                         | Raise e => Raise e
                                         | Ok l => Ok (RFoot (to_fpdata (tl cts) q l))
                                         end
                            end
                  end
              end) by (cbn [ideal]; rewrite S1; now destruct k).
        rewrite I. clear I. destruct (need_hl ln b') as [[[hi lo]|e] b''] eqn:EN; cbn [fst snd] in *.
        * pose proof (proj1 N1) as T. rewrite !T. destruct (comp_bar_ohlcv (t_px t) (t_am t) cix) as [bars|e]; [|discriminate].
          injection N2 as -> ->.
          destruct (match tick with Some q => Ok q | None => comp_price_tick_size (t_px t) end) as [q|e]; cbn [fst snd]; [|split; [exact N1|reflexivity]].
          destruct (t_side t) as [sd|]; cbn [fst snd]; [|split; [exact N1|reflexivity]].
          destruct (comp_bar_footprints _ _ _ _ _ _ _ _); cbn [fst snd]; (split; [exact N1|reflexivity]).
        * split; [exact N1|]. destruct (comp_bar_ohlcv (t_px t) (t_am t) cix) as [bars|e']; [discriminate|]. injection N2 as <-. reflexivity.
      + split; [exact S2|]. cbn [ideal]. rewrite <- S1. now destruct k.
    - cbn [M_builder.exec tag fst snd ideal]. rewrite <- S1. destruct (set_close ln b) as [[[cts cix]|e] b']; cbn [fst snd] in *; (split; [exact S2|]); now destruct k.
    - cbn [M_builder.exec tag fst snd ideal]. rewrite <- S1. destruct (set_close ln b) as [[[cts cix]|e] b']; cbn [fst snd] in *; (split; [exact S2|]); now destruct k.
    - cbn [M_builder.exec tag fst snd ideal]. unfold get_sigma.
      assert (KK : match bd_kit b, k with KCusum _ _ _, KCusum _ _ _ => True | KCusum _ _ _, _ | _, KCusum _ _ _ => False | _, _ => True end).
      { destruct H as [_ [C H]]. destruct (bd_kit b) eqn:EB, k; cbn in C; auto;
          repeat match type of C with context[if ?x then _ else _] => destruct x end; discriminate. }
      destruct (bd_kit b) as [? | ? | ? | ? | s0 flr0 mult0] eqn:EB; destruct k as [?|?|?|?|sigma flr mult]; try contradiction; try (split; [exact H|reflexivity]).
      destruct (set_close ln b) as [[[cts cix]|e] b'] eqn:E; cbn [fst snd] in *.
      + rewrite <- S1. symmetry in S1. destruct (S3 _ S1) as [_ S6]. rewrite S6. cbn [comp_bar_close]. cbn [comp_bar_close] in S1.
        destruct (cusum_len_check (t_ts t) (t_px t) sigma); [|discriminate]. cbn [snd]. rewrite fill_length.
        split; [exact S2|]. now destruct (forallb _ _).
      + rewrite <- S1. split; [exact S2|reflexivity].
  Qed.

  Lemma after_inv k t b h : inv k t b -> regular k t -> inv k t (after b h).
  Proof.
    revert b. induction h as [|c h IH]; intros b H R; [exact H|]. cbn [M_builder.after fold_left]. apply IH; [|exact R].
    now apply exec_inv.
  Qed.

  Lemma history_regular k t h c : regular k t -> fst (exec (after (fresh k t) h) c) = fst (exec (fresh k t) c).
  Proof.
    intro R. rewrite (proj2 (exec_inv k t _ c (after_inv k t _ h (inv_fresh k t) R) R)).
    symmetry. apply exec_inv; [apply inv_fresh|exact R].
  Qed.
  Lemma info_regular k t : (forall iv, k <> KTime iv) -> regular k t.
  Proof. intros H cts cix _. destruct k; try reflexivity. now destruct (H iv). Qed.
End B.

(* ------------------------------------------------------------------ *)
(** ** The closes *)

Lemma strict_snoc l (i : nat) : strict_asc l -> (forall x, In x l -> (x < i)%nat) -> strict_asc (l ++ [i]).
Proof.
  unfold strict_asc. induction l as [|a l IH]; intros H K; cbn.
  - repeat constructor.
  - inversion_clear H as [|? ? H1 H2]. constructor; [apply IH; [exact H1|intros; apply K; now right]|].
    apply Forall_app. split; [exact H2|]. constructor; [apply K; now left|constructor].
Qed.

(** A loop over positions that appends the current position or nothing. *)
Lemma grows {A} (idx : A -> list nat) (step : A -> nat -> A) (P : nat -> Prop) (f : nat) (init : A) m :
  idx init = [f] ->
  (forall s i, (f < i)%nat -> idx (step s i) = idx s \/ (idx (step s i) = idx s ++ [i] /\ P i)) ->
  let r := idx (fold_left step (seq (f + 1) m) init) in
  exists l, r = f :: l /\ strict_asc r /\ (forall i, In i l -> (f < i <= f + m)%nat /\ P i).
Proof.
  intros H0 Hs. induction m as [|m IH].
  - cbn [seq fold_left]. cbv zeta. exists []. rewrite H0. split; [reflexivity|]. split; [repeat constructor|]. contradiction.
  - cbv zeta in *. rewrite seq_S, fold_left_app. cbn [fold_left].
    destruct IH as [l [E [S R]]]. set (s := fold_left step (seq (f + 1) m) init) in *.
    destruct (Hs s (f + 1 + m)%nat ltac:(lia)) as [K|[K KP]]; rewrite K.
    + exists l. rewrite E in *. split; [reflexivity|]. split; [exact S|]. intros i Hi. destruct (R i Hi); split; [lia|auto].
    + exists (l ++ [f + 1 + m]%nat). rewrite E in *. split; [reflexivity|]. split.
      * apply strict_snoc; [exact S|]. intros x [<-|Hx]; [lia|]. destruct (R x Hx); lia.
      * intros i Hi. apply in_app_or in Hi. destruct Hi as [Hi|[<-|[]]]; [destruct (R i Hi); split; [lia|auto]|split; [lia|exact KP]].
Qed.

Lemma tick_grows n thr : (1 <= n)%nat -> exists l, tick_bar_indexer n thr = 0%nat :: l /\ strict_asc (tick_bar_indexer n thr) /\
  (forall i, In i l -> (0 < i < n)%nat).
Proof.
  intro Hn. destruct (grows fst (tick_step thr) (fun _ => True) 0 ([0%nat], 1) (n - 1) eq_refl) as [l [E [S R]]].
  - intros [idx cum] i _. cbn. destruct (_ <=? _); cbn; auto.
  - exists l. split; [exact E|]. split; [exact S|]. intros i Hi. destruct (R i Hi). lia.
Qed.
Lemma volume_grows v thr : (1 <= length v)%nat -> exists l, volume_bar_indexer v thr = 0%nat :: l /\ strict_asc (volume_bar_indexer v thr) /\
  (forall i, In i l -> (0 < i < length v)%nat).
Proof.
  intro Hn. destruct (grows fst (volume_step v thr) (fun _ => True) 0 ([0%nat], nth 0 v 0%Q) (length v - 1) eq_refl) as [l [E [S R]]].
  - intros [idx cum] i _. cbn [volume_step]. cbv zeta. destruct (Qleb _ _); cbn [fst]; auto.
  - exists l. split; [exact E|]. split; [exact S|]. intros i Hi. destruct (R i Hi). lia.
Qed.
Lemma dollar_grows p v thr : (1 <= length p)%nat -> exists l, dollar_bar_indexer p v thr = 0%nat :: l /\ strict_asc (dollar_bar_indexer p v thr) /\
  (forall i, In i l -> (0 < i < length p)%nat).
Proof.
  intro Hn. destruct (grows fst (dollar_step p v thr) (fun _ => True) 0 ([0%nat], (nth 0 p 0 * nth 0 v 0)%Q) (length p - 1) eq_refl) as [l [E [S R]]].
  - intros [idx cum] i _. cbn [dollar_step]. cbv zeta. destruct (Qleb _ _); cbn [fst]; auto.
  - exists l. split; [exact E|]. split; [exact S|]. intros i Hi. destruct (R i Hi). lia.
Qed.
Lemma cusum_grows ln ts p sigma flr mult : ts <> [] -> length p = length ts -> length sigma = length ts ->
  exists f l, cusum_bar_indexer ln ts p sigma flr mult = f :: l /\ strict_asc (cusum_bar_indexer ln ts p sigma flr mult) /\
  (f < length ts)%nat /\ (forall i, In i l -> (f < i < length ts)%nat /\ ~ block_goes_on ts i).
Proof.
  intros Hn Lp Ls. set (f := first_non_nan sigma).
  assert (Hf : (f < length ts)%nat).
  { unfold f, first_non_nan. destruct (first_some sigma) as [g|] eqn:E.
    - destruct (first_some_split _ _ E) as [x [r Q0]]. rewrite <- Ls, Q0, app_length, repeat_length. cbn. lia.
    - destruct ts; [congruence|cbn; lia]. }
  destruct (grows cs_idx (cusum_bar_step ln ts p (fill_sigma sigma) flr mult) (fun i => ~ ((i + 1 < length ts)%nat /\ nth i ts 0 = nth (i + 1) ts 0)) f
              (mkCS [f] 0 0) (length p - (f + 1)) eq_refl) as [l [E [S R]]].
  - intros s i _. unfold cusum_bar_step. cbv zeta. rewrite Lp.
    destruct (Nat.ltb_spec (i + 1) (length ts)) as [H1|H1]; cbn [andb].
    + destruct (Z.eqb_spec (nth i ts 0) (nth (i + 1) ts 0)) as [H2|H2]; [left; reflexivity|].
      destruct (cusum_lam _ _ _ _); [|left; reflexivity]. destruct (Qleb _ _); [right; split; [reflexivity|tauto]|].
      destruct (Qleb _ _); [right; split; [reflexivity|tauto]|left; reflexivity].
    + destruct (cusum_lam _ _ _ _); [|left; reflexivity]. destruct (Qleb _ _); [right; split; [reflexivity|lia]|].
      destruct (Qleb _ _); [right; split; [reflexivity|lia]|left; reflexivity].
  - exists f, l. split; [exact E|]. split; [exact S|]. split; [exact Hf|]. intros i Hi. destruct (R i Hi) as [R1 R2]. split; [lia|exact R2].
Qed.

Lemma gather_ok ts idx : (forall i, In i idx -> (i < length ts)%nat) -> gather ts idx = Ok (map (fun i => nth i ts 0) idx, map Z.of_nat idx).
Proof.
  intro H. unfold gather. replace (forallb _ idx) with true; [reflexivity|]. symmetry. apply forallb_forall.
  intros i Hi. apply Nat.ltb_lt. auto.
Qed.

Section B2.
  Variable ln log1p : Q -> Q.
  Notation comp := (comp_bar_close ln).
  Notation exec := (exec ln log1p).
  Notation after := (after ln log1p).

  (** Closes of a builder other than TimeBarKit: positions of trades, in strictly ascending order. *)
  Lemma info_closes k t : good_trades t -> good_kit k t -> (forall iv, k <> KTime iv) ->
    exists f l, fst (comp k t) = Ok (map (fun i => nth i (t_ts t) 0) (f :: l), map Z.of_nat (f :: l)) /\
      strict_asc (f :: l) /\ (forall i, In i (f :: l) -> (i < length (t_ts t))%nat) /\
      (forall s fl m, k = KCusum s fl m -> forall i, In i l -> ~ block_goes_on (t_ts t) i).
  Proof.
    intros [Hn [Lp La]] G NT. assert (H1 : (1 <= length (t_ts t))%nat) by (destruct (t_ts t); [congruence|cbn; lia]).
    destruct k as [iv|n|thr|thr|sigma flr mult]; cbn [comp_bar_close fst].
    - now destruct (NT iv).
    - destruct (tick_grows (length (t_ts t)) n H1) as [l [E [S R]]]. rewrite E in *. exists 0%nat, l.
      assert (IR : forall i, In i (0 :: l)%nat -> (i < length (t_ts t))%nat) by (intros i [<-|Hi]; [lia|apply R in Hi; lia]).
      rewrite (gather_ok _ _ IR). repeat split; auto. intros; discriminate.
    - destruct (volume_grows (t_am t) thr ltac:(lia)) as [l [E [S R]]]. rewrite E in *. exists 0%nat, l.
      assert (IR : forall i, In i (0 :: l)%nat -> (i < length (t_ts t))%nat) by (intros i [<-|Hi]; [lia|apply R in Hi; lia]).
      rewrite (gather_ok _ _ IR). repeat split; auto. intros; discriminate.
    - destruct (dollar_grows (t_px t) (t_am t) thr ltac:(lia)) as [l [E [S R]]]. rewrite E in *. exists 0%nat, l.
      assert (IR : forall i, In i (0 :: l)%nat -> (i < length (t_ts t))%nat) by (intros i [<-|Hi]; [lia|apply R in Hi; lia]).
      rewrite (gather_ok _ _ IR). repeat split; auto. intros; discriminate.
    - cbn in G. destruct (cusum_grows ln (t_ts t) (t_px t) sigma flr mult Hn Lp G) as [f [l [E [S [Hf R]]]]].
      unfold cusum_len_check. rewrite Lp, G, Nat.eqb_refl. cbn [negb andb fst]. rewrite E in *. exists f, l.
      assert (IR : forall i, In i (f :: l) -> (i < length (t_ts t))%nat) by (intros i [<-|Hi]; [lia|apply R in Hi; lia]).
      rewrite (gather_ok _ _ IR). split; [reflexivity|]. split; [exact S|]. split; [exact IR|]. intros s fl m _ i Hi. now apply R.
  Qed.

  Lemma time_regular iv t : good_trades t -> good_kit (KTime iv) t -> regular ln (KTime iv) t.
  Proof.
    intros [Hn _] [G1 [G2 [G3 [G4 [G5 [G6 G7]]]]]] cts cix E. cbn [comp_bar_close fst] in E.
    apply (f_equal (fun r => match r with Ok x => x | Raise _ => ([], []) end)) in E. cbv beta iota in E.
    destruct (C01_clock _ _ Hn G1 G2 G3 G4 G5 G6 G7) as [N [a [HN [C _]]]]. rewrite E in C. cbn [fst] in C. rewrite C. clear -HN.
    destruct N as [|N]; [reflexivity|]. cbn [seq map tl]. rewrite <- seq_shift, map_map. cbn [freq_ok]. apply forallb_forall.
    intros i Hi. rewrite map_length, seq_length in Hi. apply in_seq in Hi. apply Z.eqb_eq.
    assert (NT : forall j, (j < N)%nat -> nth j (map (fun x => (a + Z.of_nat (S x)) * iv) (seq 0 N)) 0 = (a + Z.of_nat (S j)) * iv).
    { intros j Hj. rewrite (nth_indep _ 0 ((a + Z.of_nat (S 0)) * iv)) by (rewrite map_length, seq_length; lia).
      change ((a + Z.of_nat 1) * iv) with ((fun x => (a + Z.of_nat (S x)) * iv) 0%nat). rewrite map_nth. now rewrite seq_nth by lia. }
    rewrite NT by lia. replace (hd 0 (map (fun x : nat => (a + Z.of_nat (S x)) * iv) (seq 0 N))) with ((a + 1) * iv).
    - rewrite Nat2Z.inj_succ. ring.
    - destruct N; [lia|reflexivity].
  Qed.

  Lemma good_regular k t : good_trades t -> good_kit k t -> regular ln k t.
  Proof.
    intros T G. destruct k as [iv|n|thr|thr|sigma flr mult]; [now apply time_regular| | | |];
      apply info_regular; intros ? E; discriminate.
  Qed.

  (* ---------------------------------------------------------------- *)
  (** ** C125: replies do not depend on the calls made before *)

  (** Tick, volume, dollar and CUSUM builders, any trades: after any history of calls, successful or
      not, a call returns what it returns on a new builder. *)
  Theorem C125_information_bars : forall k t h c, (forall iv, k <> KTime iv) ->
    fst (exec (after (fresh k t) h) c) = fst (exec (fresh k t) c).
  Proof. intros k t h c H. apply history_regular. now apply info_regular. Qed.
  (** Time bar builders too, under the float64 conditions on interval and timestamps. *)
  Theorem C125_time_bars : forall k t h c, good_trades t -> good_kit k t ->
    fst (exec (after (fresh k t) h) c) = fst (exec (fresh k t) c).
  Proof. intros k t h c T G. apply history_regular. now apply good_regular. Qed.

  (* ---------------------------------------------------------------- *)
  (** ** C126: labels *)

  Lemma map_fst_combine {A B} (l : list A) (m : list B) : length l = length m -> map fst (combine l m) = l.
  Proof. revert m. induction l as [|a l IH]; intros [|b m] H; cbn in *; try discriminate; [reflexivity|]. f_equal. apply IH. lia. Qed.

  Lemma foot_length px am cix sd q lo hi mult l : comp_bar_footprints px am cix sd q lo hi mult = Ok l -> length l = (length cix - 1)%nat.
  Proof. intro E. pose proof (run_all_nth _ _ _ E) as [L _]. rewrite seq_length in L. lia. Qed.

  (** Every frame and the footprint container of a builder have one row per reported bar, with the
      labels of [bar_close_timestamps], in every state of the builder. *)
  Theorem C126_labels : forall k t h c r, good_trades t -> good_kit k t ->
    fst (exec (after (fresh k t) h) c) = Ok r ->
    exists ix, fst (exec (fresh k t) CTs) = Ok (RTs ix) /\ bars_of r = length ix /\
      (forall l, labels_of r = Some l -> l = ix) /\ (forall fd, r = RFoot fd -> aligned fd (length ix)).
  Proof.
    intros k t h c r T G E. pose proof (good_regular k t T G) as R. rewrite (history_regular ln log1p k t h c R) in E.
    pose proof (proj2 (exec_inv ln log1p k t _ c (inv_fresh ln k t) R)) as I. rewrite E in I. clear E.
    rewrite (proj2 (exec_inv ln log1p k t _ CTs (inv_fresh ln k t) R)).
    destruct (fst (comp k t)) as [[cts cix]|e] eqn:EC.
    2:{ unfold ideal in I. rewrite EC in I. destruct c; try discriminate; now destruct k. }
    pose proof (comp_lengths ln _ _ _ _ EC) as CL. exists (tl cts).
    assert (LT : length (tl cts) = (length cix - 1)%nat) by (destruct cts; cbn in *; lia).
    split; [unfold ideal; rewrite EC; now destruct k|].
    assert (Goal0 : bars_of r = length (tl cts) /\ (forall l, labels_of r = Some l -> l = tl cts) /\ (forall fd, r = RFoot fd -> aligned fd (length (tl cts)))); [|tauto].
    destruct c as [| |theta mult|tick mult| | |].
    - assert (I2 : Ok r = match comp_bar_ohlcv (t_px t) (t_am t) cix with Raise e => Raise e | Ok bars => Ok (ROhlcv (combine (tl cts) bars)) end)
        by (rewrite I; unfold ideal; rewrite EC; now destruct k).
      clear I. destruct (comp_bar_ohlcv _ _ _) as [bars|e] eqn:EO; [|discriminate]. injection I2 as ->.
      pose proof (proj1 (api_length _ _ _) _ EO) as AL. cbn [bars_of labels_of]. rewrite combine_length, map_fst_combine by lia.
      split; [lia|]. split; [congruence|discriminate].
    - assert (I2 : Ok r = match t_side t with None => Raise KeyError | Some sd => Ok (RDir (combine (tl cts) (comp_bar_directional (t_px t) (t_am t) sd cix))) end)
        by (rewrite I; unfold ideal; rewrite EC; now destruct k).
      clear I. destruct (t_side t) as [sd|]; [|discriminate]. injection I2 as ->.
      assert (AL : length (comp_bar_directional (t_px t) (t_am t) sd cix) = (length cix - 1)%nat) by (unfold comp_bar_directional; now rewrite map_length, seq_length).
      cbn [bars_of labels_of]. rewrite combine_length, map_fst_combine by lia. split; [lia|]. split; [congruence|discriminate].
    - assert (I2 : Ok r = match comp_bar_size log1p (t_am t) theta cix mult with Raise e => Raise e | Ok rows => Ok (RSize (combine (tl cts) rows)) end)
        by (rewrite I; unfold ideal; rewrite EC; now destruct k).
      clear I. destruct (comp_bar_size _ _ _ _ _) as [rows|e] eqn:ES; [|discriminate]. injection I2 as ->.
      assert (AL : length rows = (length cix - 1)%nat).
      { revert ES. unfold comp_bar_size. destruct (negb _); [discriminate|]. intro Q0. injection Q0 as <-. now rewrite map_length, seq_length. }
      cbn [bars_of labels_of]. rewrite combine_length, map_fst_combine by lia. split; [lia|]. split; [congruence|discriminate].
    - assert (I2 : exists q l sd bars, comp_bar_footprints (t_px t) (t_am t) cix sd q (map b_low bars) (map b_high bars) mult = Ok l /\ r = RFoot (to_fpdata (tl cts) q l)).
      { assert (I3 : Ok r = match comp_bar_ohlcv (t_px t) (t_am t) cix with
              | Raise e => Raise e
              | Ok bars =>
                  match (match tick with Some q => Ok q | None => comp_price_tick_size (t_px t) end) with
                  | Raise e => Raise e
                  | Ok q => match t_side t with
                            | None => Raise KeyError
                            | Some sd => match comp_bar_footprints (t_px t) (t_am t) cix sd q (map b_low bars) (map b_high bars) mult with
                                         | Raise e => Raise e
                                         | Ok l => Ok (RFoot (to_fpdata (tl cts) q l))
                                         end
                            end
                  end
              end) by (rewrite I; unfold ideal; rewrite EC; now destruct k).
        destruct (comp_bar_ohlcv _ _ _) as [bars|e]; [|discriminate].
        destruct (match tick with Some q => Ok q | None => comp_price_tick_size (t_px t) end) as [q|e]; [|discriminate].
        destruct (t_side t) as [sd|]; [|discriminate]. destruct (comp_bar_footprints _ _ _ _ _ _ _ _) as [l|e] eqn:EF; [|discriminate].
        injection I3 as ->. exists q, l, sd, bars. auto. }
      clear I. destruct I2 as [q [l [sd [bars [EF ->]]]]]. pose proof (foot_length _ _ _ _ _ _ _ _ _ EF) as FL.
      cbn [bars_of labels_of to_fpdata fd_lv fd_ts]. rewrite map_length. split; [lia|]. split; [congruence|].
      intros fd Q0. injection Q0 as <-. rewrite LT, <- FL. unfold to_fpdata. constructor; cbn; try apply map_length. lia.
    - assert (I2 : Ok r = Ok (RIdx (tl cix))) by (rewrite I; unfold ideal; rewrite EC; now destruct k). injection I2 as ->.
      cbn [bars_of labels_of]. split; [|split; discriminate]. destruct cts, cix; cbn in *; lia.
    - assert (I2 : Ok r = Ok (RTs (tl cts))) by (rewrite I; unfold ideal; rewrite EC; now destruct k). injection I2 as ->.
      cbn [bars_of labels_of]. split; [reflexivity|]. split; [congruence|discriminate].
    - destruct k as [iv|n|thr|thr|sigma flr mult]; try discriminate. unfold ideal in I. rewrite EC in I.
      destruct (forallb _ _); [|discriminate]. injection I as ->. cbn [bars_of labels_of]. rewrite map_length.
      split; [|split; discriminate]. destruct cts, cix; cbn in *; lia.
  Qed.

  Lemma asc_map_nth ts (l : list nat) i j : ascZ ts -> strict_asc l -> (forall x, In x l -> (x < length ts)%nat) -> (i <= j < length l)%nat ->
    nth i (map (fun x => nth x ts 0) l) 0 <= nth j (map (fun x => nth x ts 0) l) 0.
  Proof.
    intros HA HS HR Hij.
    assert (L : (i < j)%nat -> (nth i l 0 < nth j l 0)%nat).
    { clear -HS Hij. intro H. revert i j H Hij. induction HS as [|a l HS IH F]; intros i j H Hij; cbn in Hij; [lia|].
      destruct i, j; try lia; cbn.
      - rewrite Forall_forall in F. apply F. apply nth_In. lia.
      - apply IH; lia. }
    assert (K : forall x, (x < length l)%nat -> nth x (map (fun x => nth x ts 0) l) 0 = nth (nth x l 0%nat) ts 0).
    { intros x Hx. rewrite (nth_indep _ 0 (nth 0 ts 0)) by (rewrite map_length; lia). now rewrite (map_nth (fun x => nth x ts 0) l 0%nat). }
    rewrite !K by lia. apply HA. split; [|apply HR; apply nth_In; lia].
    destruct (Nat.eq_dec i j) as [->|]; [lia|]. specialize (L ltac:(lia)). lia.
  Qed.

  (** Tick, volume, dollar and CUSUM bars: the closes are positions of trades in strictly ascending
      order, the label of a bar is the timestamp of its last trade, and labels ascend with the trades. *)
  Theorem C126_information_labels : forall k t, good_trades t -> good_kit k t -> (forall iv, k <> KTime iv) ->
    exists ix jx, fst (exec (fresh k t) CTs) = Ok (RTs ix) /\ fst (exec (fresh k t) CIdx) = Ok (RIdx jx) /\ length ix = length jx /\
      (forall n, (n < length jx)%nat -> 0 <= nth n jx 0 < Z.of_nat (length (t_ts t)) /\ nth n ix 0 = nth (Z.to_nat (nth n jx 0)) (t_ts t) 0) /\
      (forall m n, (m < n < length jx)%nat -> nth m jx 0 < nth n jx 0) /\
      (ascZ (t_ts t) -> ascZ ix).
  Proof.
    intros k t T G NT. destruct (info_closes k t T G NT) as [f [l [EC [S [R _]]]]]. pose proof (good_regular k t T G) as RG.
    exists (map (fun i => nth i (t_ts t) 0) l), (map Z.of_nat l).
    split; [rewrite (proj2 (exec_inv ln log1p k t _ CTs (inv_fresh ln k t) RG)); unfold ideal; rewrite EC; now destruct k|].
    split; [rewrite (proj2 (exec_inv ln log1p k t _ CIdx (inv_fresh ln k t) RG)); unfold ideal; rewrite EC; now destruct k|].
    rewrite !map_length. split; [reflexivity|]. inversion_clear S as [|? ? S1 S2].
    assert (RL : forall x, In x l -> (x < length (t_ts t))%nat) by (intros; apply R; now right).
    assert (NJ : forall n, nth n (map Z.of_nat l) 0 = Z.of_nat (nth n l 0%nat)) by (intro n; change 0 with (Z.of_nat 0); apply map_nth).
    assert (NI : forall n, (n < length l)%nat -> nth n (map (fun i => nth i (t_ts t) 0) l) 0 = nth (nth n l 0%nat) (t_ts t) 0).
    { intros x Hx. rewrite (nth_indep _ 0 (nth 0 (t_ts t) 0)) by (rewrite map_length; lia). now rewrite (map_nth (fun x => nth x (t_ts t) 0) l 0%nat). }
    split; [|split].
    - intros n Hn. rewrite NJ, NI, Nat2Z.id by exact Hn. pose proof (RL _ (nth_In l 0%nat Hn)). split; [lia|reflexivity].
    - intros m n Hmn. rewrite !NJ. apply Nat2Z.inj_lt. clear -S1 Hmn. revert m n Hmn. induction S1 as [|a l HS IH F]; intros m n H; cbn in H; [lia|].
      destruct m, n; try lia; cbn; [|apply IH; lia]. rewrite Forall_forall in F. apply F. apply nth_In. lia.
    - intros A i j Hij. rewrite map_length in Hij. now apply asc_map_nth.
  Qed.

  (** Which trades close the bars: the positions satisfy the specification of the bar type, read from
      the right columns of the trades. *)
  Theorem C126_positions : forall k t, good_trades t -> good_kit k t -> (forall iv, k <> KTime iv) ->
    exists l, fst (exec (fresh k t) CIdx) = Ok (RIdx (map Z.of_nat l)) /\ closes_spec ln k t l.
  Proof.
    intros k t T G NT. pose proof (good_regular k t T G) as RG. pose proof (info_closes k t T G NT) as IC.
    assert (X : forall f l, fst (comp k t) = Ok (map (fun i => nth i (t_ts t) 0) (f :: l), map Z.of_nat (f :: l)) ->
      fst (exec (fresh k t) CIdx) = Ok (RIdx (map Z.of_nat l))).
    { intros f l E. rewrite (proj2 (exec_inv ln log1p k t _ CIdx (inv_fresh ln k t) RG)). unfold ideal. rewrite E. now destruct k. }
    destruct IC as [f0 [l0 [EC [SS [RL _]]]]]. exists l0. split; [exact (X _ _ EC)|]. clear X.
    destruct T as [Hn [Lp La]]. assert (H1 : (1 <= length (t_ts t))%nat) by (destruct (t_ts t); [congruence|cbn; lia]).
    assert (GI : forall idx, gather (t_ts t) idx = Ok (map (fun i => nth i (t_ts t) 0) (f0 :: l0), map Z.of_nat (f0 :: l0)) -> idx = f0 :: l0).
    { intros idx E. unfold gather in E. destruct (forallb _ _); [|discriminate]. apply (f_equal (fun r => match r with Ok x => snd x | Raise _ => [] end)) in E.
      cbn [snd] in E. clear -E. revert E. generalize (f0 :: l0). intros m E. revert m E. induction idx as [|a r IH]; intros [|b m] E; cbn in E; try discriminate; [reflexivity|].
      injection E as E1 E2. f_equal; [lia|auto]. }
    destruct k as [iv|m|thr|thr|sigma flr mult]; cbn [comp_bar_close fst closes_spec] in *.
    - exact I.
    - apply GI in EC. intros Hm i. pose proof (C03_tick_positions (length (t_ts t)) (Z.to_nat m) i H1 ltac:(lia)) as P.
      rewrite Z2Nat.id, EC in P by lia.
      assert (F0 : f0 = 0%nat) by (destruct (tick_grows (length (t_ts t)) m H1) as [l' [E' _]]; rewrite EC in E'; congruence).
      subst f0. inversion_clear SS as [|? ? S1 S2]. rewrite Forall_forall in S2.
      assert (DV : Nat.divide (Z.to_nat m) (i + 1) <-> (m | Z.of_nat i + 1)).
      { split; intros [q Hq]; [exists (Z.of_nat q); nia|]. exists (Z.to_nat q). assert (0 < q) by nia. nia. }
      rewrite <- DV. split.
      + intro Hi. destruct P as [P _]. destruct (P (or_intror Hi)) as [E|E]; [|exact E]. specialize (S2 _ Hi). lia.
      + intros [Hi Hd]. destruct P as [_ P]. destruct (P (or_intror (conj Hi Hd))) as [E|E]; [lia|exact E].
    - apply GI in EC. assert (F0 : f0 = 0%nat) by (destruct (volume_grows (t_am t) thr ltac:(lia)) as [l' [E' _]]; rewrite EC in E'; congruence).
      subst f0. rewrite <- EC, <- La. apply C04_volume_greedy. lia.
    - apply GI in EC. assert (F0 : f0 = 0%nat) by (destruct (dollar_grows (t_px t) (t_am t) thr ltac:(lia)) as [l' [E' _]]; rewrite EC in E'; congruence).
      subst f0. inversion_clear SS as [|? ? S1 S2]. rewrite Forall_forall in S2. split; [exact S1|]. split.
      + intros i Hi. specialize (S2 _ Hi). specialize (RL i (or_intror Hi)). lia.
      + intros i Hi. pose proof (C05_dollar_closes (t_px t) (t_am t) thr i ltac:(lia)) as P. cbv zeta in P. rewrite EC in P.
        change (closes_below (0%nat :: l0) i) with (closes_below l0 i) in P. rewrite <- P. split; [now right|]. intros [E|E]; [lia|exact E].
    - cbn [good_kit] in G. intros Hf f FK. unfold cusum_len_check in EC. rewrite Lp, G, Nat.eqb_refl in EC. cbn [negb andb fst] in EC. apply GI in EC.
      destruct (C06_cusum_bars ln (t_ts t) (t_px t) sigma flr mult f Lp G Hf FK) as [evs [E Ev]]. rewrite EC in E. injection E as -> ->.
      rewrite <- Lp. exact Ev.
  Qed.
  (** CUSUM bars never close inside a block of equal timestamps: labels ascend strictly. *)
  Theorem C126_cusum_labels : forall sigma flr mult t ix, good_trades t -> length sigma = length (t_ts t) -> ascZ (t_ts t) ->
    fst (exec (fresh (KCusum sigma flr mult) t) CTs) = Ok (RTs ix) ->
    forall m n, (m < n < length ix)%nat -> nth m ix 0 < nth n ix 0.
  Proof.
    intros sigma flr mult t ix T G A E m n Hmn.
    assert (NT : forall iv, KCusum sigma flr mult <> KTime iv) by discriminate.
    destruct (info_closes (KCusum sigma flr mult) t T G NT) as [f [l [EC [S [R B]]]]].
    pose proof (info_regular ln (KCusum sigma flr mult) t NT) as RG.
    rewrite (proj2 (exec_inv ln log1p (KCusum sigma flr mult) t _ CTs (inv_fresh ln _ t) RG)) in E. unfold ideal in E. rewrite EC in E.
    cbn [map tl] in E. injection E as <-. rewrite map_length in Hmn.
    assert (NI : forall n, (n < length l)%nat -> nth n (map (fun i => nth i (t_ts t) 0) l) 0 = nth (nth n l 0%nat) (t_ts t) 0).
    { intros x Hx. rewrite (nth_indep _ 0 (nth 0 (t_ts t) 0)) by (rewrite map_length; lia). now rewrite (map_nth (fun x => nth x (t_ts t) 0) l 0%nat). }
    rewrite !NI by lia. assert (Im : In (nth m l 0%nat) l) by (apply nth_In; lia). assert (In' : In (nth n l 0%nat) l) by (apply nth_In; lia).
    pose proof (B _ _ _ eq_refl _ Im) as NB. pose proof (R (nth n l 0%nat) (or_intror In')) as Rn.
    assert (L : (nth m l 0 < nth n l 0)%nat).
    { inversion_clear S as [|? ? S1 _]. clear -S1 Hmn. revert m n Hmn. induction S1 as [|a l HS IH F]; intros m n H; cbn in H; [lia|].
      destruct m, n; try lia; cbn; [|apply IH; lia]. rewrite Forall_forall in F. apply F. apply nth_In. lia. }
    unfold block_goes_on in NB. pose proof (A (nth m l 0%nat) (nth m l 0 + 1)%nat ltac:(lia)). pose proof (A (nth m l 0 + 1)%nat (nth n l 0%nat) ltac:(lia)).
    destruct (Z.eq_dec (nth (nth m l 0%nat) (t_ts t) 0) (nth (nth m l 0 + 1)%nat (t_ts t) 0)) as [Q0|]; [exfalso; apply NB; split; [lia|exact Q0]|lia].
  Qed.

  (** Time bars: labels are consecutive multiples of the interval. *)
  Theorem C126_time_labels : forall iv t, good_trades t -> good_kit (KTime iv) t ->
    exists a ix, fst (exec (fresh (KTime iv) t) CTs) = Ok (RTs ix) /\
      (forall n, (n < length ix)%nat -> nth n ix 0 = (a + Z.of_nat n) * iv) /\ (a - 1) * iv <= hd 0 (t_ts t) < a * iv /\
      (ix <> [] -> last (t_ts t) 0 <= last ix 0).
  Proof.
    intros iv t T G. pose proof (good_regular (KTime iv) t T G) as RG.
    destruct T as [Hn _], G as [G1 [G2 [G3 [G4 [G5 [G6 G7]]]]]].
    destruct (C01_clock _ _ Hn G1 G2 G3 G4 G5 G6 G7) as [N [a [HN [C [H1 [H2 _]]]]]].
    exists (a + 1), (tl (fst (time_bar_indexer (t_ts t) iv))).
    split; [rewrite (proj2 (exec_inv ln log1p (KTime iv) t _ CTs (inv_fresh ln _ t) RG)); unfold ideal; cbn [comp_bar_close fst]; now destruct (time_bar_indexer (t_ts t) iv)|].
    rewrite C. clear -HN H1 H2. destruct N as [|N]; [lia|]. cbn [seq map tl]. rewrite <- seq_shift, map_map.
    assert (K : forall n, (n < N)%nat -> nth n (map (fun x => (a + Z.of_nat (S x)) * iv) (seq 0 N)) 0 = (a + 1 + Z.of_nat n) * iv).
    { intros n Hn. rewrite (nth_indep _ 0 ((a + Z.of_nat (S 0)) * iv)) by (rewrite map_length, seq_length; lia).
      change ((a + Z.of_nat 1) * iv) with ((fun x => (a + Z.of_nat (S x)) * iv) 0%nat). rewrite map_nth, seq_nth by lia. cbn [plus]. rewrite Nat2Z.inj_succ. ring. }
    split; [|split].
    - intros n Hn. rewrite map_length, seq_length in Hn. auto.
    - replace (a + 1 - 1) with a by ring. exact H1.
    - intro NE. destruct N as [|N]; [now cbn in NE|]. rewrite seq_S, map_app. cbn [map]. rewrite last_last.
      eapply Z.le_trans; [exact H2|]. apply Z.eq_le_incl. f_equal. lia.
  Qed.

  (* ---------------------------------------------------------------- *)
  (** ** C127: sharing the sigma array *)

  (** The builder overwrites the caller's sigma array; a second builder on the overwritten array
      returns the same replies as the first. *)
  Theorem C127_second_builder : forall sigma flr mult t h c,
    bd_kit (snd (exec (fresh (KCusum sigma flr mult) t) CTs)) =
      KCusum (if cusum_len_check (t_ts t) (t_px t) sigma then fill_sigma sigma else sigma) flr mult /\
    fst (exec (after (fresh (KCusum (fill_sigma sigma) flr mult) t) h) c) = fst (exec (fresh (KCusum sigma flr mult) t) c).
  Proof.
    intros sigma flr mult t h c. set (k := KCusum sigma flr mult).
    assert (RG : regular ln k t) by (apply info_regular; discriminate). split.
    - cbn [M_builder.exec tag snd set_close fresh bd_close bd_kit bd_tr k comp_bar_close].
      destruct (cusum_len_check _ _ _); [|reflexivity]. now destruct (gather _ _) as [[? ?]|?].
    - rewrite C125_information_bars by discriminate.
      assert (I : fst (exec (fresh (KCusum (fill_sigma sigma) flr mult) t) c) = ideal ln log1p (KCusum (fill_sigma sigma) flr mult) t c)
        by (apply exec_inv; [apply inv_fresh|apply info_regular; discriminate]).
      rewrite I, (proj2 (exec_inv ln log1p k t _ c (inv_fresh ln k t) RG)).
      assert (CE : fst (comp (KCusum (fill_sigma sigma) flr mult) t) = fst (comp k t)).
      { unfold k. cbn [comp_bar_close]. unfold cusum_len_check, cusum_bar_indexer, first_non_nan. rewrite fill_length, fill_first, fill_idem.
        now destruct (negb _). }
      unfold ideal. rewrite CE. unfold k. destruct c; try reflexivity. now rewrite fill_length, fill_idem.
  Qed.
  (** [get_sigma]: for every bar the last known sigma at the bar's last trade. *)
  Theorem C127_get_sigma : forall sigma flr mult t f, good_trades t -> length sigma = length (t_ts t) -> first_known sigma f ->
    exists jx ss, fst (exec (fresh (KCusum sigma flr mult) t) CIdx) = Ok (RIdx jx) /\
      fst (exec (fresh (KCusum sigma flr mult) t) CSigma) = Ok (RSigma ss) /\ length ss = length jx /\
      forall n, (n < length jx)%nat -> exists s, nth n ss None = Some s /\ last_known sigma (Z.to_nat (nth n jx 0)) s.
  Proof.
    intros sigma flr mult t f T G F.
    assert (NT : forall iv, KCusum sigma flr mult <> KTime iv) by discriminate.
    pose proof (info_regular ln (KCusum sigma flr mult) t NT) as RG.
    destruct (info_closes (KCusum sigma flr mult) t T G NT) as [f' [l [EC [S [R B]]]]].
    rewrite (proj2 (exec_inv ln log1p _ t _ CIdx (inv_fresh ln (KCusum sigma flr mult) t) RG)), (proj2 (exec_inv ln log1p _ t _ CSigma (inv_fresh ln (KCusum sigma flr mult) t) RG)).
    assert (FF : f' = f).
    { destruct T as [Hn [Lp La]]. cbn [comp_bar_close] in EC. unfold cusum_len_check in EC. rewrite Lp, G, Nat.eqb_refl in EC. cbn [negb andb fst] in EC.
      destruct (cusum_grows ln (t_ts t) (t_px t) sigma flr mult Hn Lp G) as [f2 [l2 [E2 [S2 [R2 R3]]]]].
      rewrite E2 in EC. rewrite gather_ok in EC.
      - injection EC as _ _ E _. apply Nat2Z.inj in E. subst f'.
        pose proof (grows cs_idx (cusum_bar_step ln (t_ts t) (t_px t) (fill_sigma sigma) flr mult) (fun _ => True) (first_non_nan sigma)
              (mkCS [first_non_nan sigma] 0 0) (length (t_px t) - (first_non_nan sigma + 1)) eq_refl) as GW.
        destruct GW as [l3 [E3 _]].
        + intros s i _. unfold cusum_bar_step. cbv zeta. destruct (_ && _)%bool; [auto|]. destruct (cusum_lam _ _ _ _); [|auto].
          destruct (Qleb _ _); [auto|]. destruct (Qleb _ _); auto.
        + unfold cusum_bar_indexer in E2. rewrite E3 in E2. injection E2 as <- _. clear -F.
          unfold first_non_nan. destruct F as [[s F1] F2]. destruct (first_some sigma) as [g|] eqn:E.
          * destruct (first_some_split _ _ E) as [x [r ->]]. destruct (Nat.lt_trichotomy f g) as [H|[H|H]]; [| now symmetry|].
            -- rewrite app_nth1 in F1 by (rewrite repeat_length; lia). rewrite nth_repeat in F1. discriminate.
            -- specialize (F2 g H). rewrite app_nth2 in F2 by (rewrite repeat_length; lia). rewrite repeat_length, Nat.sub_diag in F2. discriminate.
          * pose proof (first_some_none _ E) as Q0. rewrite Q0, nth_repeat in F1. discriminate.
      - intros i [<-|Hi]; [lia|]. apply R3 in Hi. lia. }
    subst f'. destruct (C07_sigma_fill sigma f F) as [_ [_ K]].
    exists (map Z.of_nat l), (map (fun i => nth i (fill_sigma sigma) None) l).
    unfold ideal. rewrite EC. cbn [map tl]. split; [reflexivity|].
    assert (RL : forall i, In i l -> (f < i < length sigma)%nat).
    { intros i Hi. split; [|rewrite G; apply R; now right]. inversion_clear S as [|? ? _ S2]. rewrite Forall_forall in S2. auto. }
    split; [|split].
    - replace (forallb _ _) with true.
      + rewrite map_map. do 2 f_equal. apply map_ext. intro i. now rewrite Nat2Z.id.
      + symmetry. apply forallb_forall. intros z Hz. apply in_map_iff in Hz. destruct Hz as [i [<- Hi]]. rewrite Nat2Z.id. apply Nat.ltb_lt. now apply RL.
    - now rewrite !map_length.
    - intros n Hn. rewrite map_length in Hn. change 0 with (Z.of_nat 0). rewrite (map_nth Z.of_nat), Nat2Z.id.
      rewrite (nth_indep _ None (nth 0%nat (fill_sigma sigma) None)) by (rewrite map_length; lia).
      rewrite (map_nth (fun i => nth i (fill_sigma sigma) None)). apply K. pose proof (RL _ (nth_In l 0%nat Hn)). lia.
  Qed.
End B2.

(* ------------------------------------------------------------------ *)
(** ** C128: the frames of a builder agree *)
Section B3.
  Variable ln log1p : Q -> Q.
  Notation comp := (comp_bar_close ln).
  Notation exec := (exec ln log1p).
  Notation after := (after ln log1p).

  Lemma good_closes k t : good_trades t -> good_kit k t ->
    exists cts cix, fst (comp k t) = Ok (cts, cix) /\ ascZ cix /\ -1 <= hd 0 cix /\ forall i, nth i cix 0 < Z.of_nat (length (t_ts t)).
  Proof.
    intros T G.
    assert (H1 : 0 < Z.of_nat (length (t_ts t))) by (destruct T as [T _]; destruct (t_ts t); [congruence|cbn [length]; lia]).
    assert (NT : (forall iv, k <> KTime iv) -> exists cts cix, fst (comp k t) = Ok (cts, cix) /\ ascZ cix /\ -1 <= hd 0 cix /\ forall i, nth i cix 0 < Z.of_nat (length (t_ts t))).
    { intro NT. destruct (info_closes ln k t T G NT) as [f [l [EC [S [R _]]]]].
      assert (NJ : forall n, nth n (map Z.of_nat (f :: l)) 0 = Z.of_nat (nth n (f :: l) 0%nat)) by (intro n; change 0 with (Z.of_nat 0); apply map_nth).
      eexists _, _. split; [exact EC|]. split; [|split].
      - intros i j Hij. rewrite map_length in Hij. rewrite !NJ. apply Nat2Z.inj_le. clear -S Hij.
        destruct (Nat.eq_dec i j) as [->|]; [lia|]. apply Nat.lt_le_incl. revert i j n Hij. induction S as [|a m HS IH F]; intros i j n H; cbn [length] in H; [lia|].
        destruct i, j; try lia; cbn [nth]; [|apply IH; lia]. rewrite Forall_forall in F. apply F. apply nth_In. lia.
      - cbn [map hd]. lia.
      - intro i. rewrite NJ. destruct (Nat.lt_ge_cases i (length (f :: l))) as [Hi|Hi].
        + apply Nat2Z.inj_lt. apply R. now apply nth_In.
        + rewrite nth_overflow by exact Hi. lia. }
    destruct k as [iv|n|thr|thr|sigma flr mult]; [|apply NT; discriminate..]. clear NT.
    destruct T as [Hn _], G as [G1 [G2 [G3 [G4 [G5 [G6 G7]]]]]].
    pose proof (C01_clock _ _ Hn G1 G2 G3 G4 G5 G6 G7) as [N [a [HN [C _]]]].
    pose proof (fun k0 => C01_close_positions (t_ts t) iv k0 Hn G1) as P. cbv zeta in P.
    exists (fst (time_bar_indexer (t_ts t) iv)), (snd (time_bar_indexer (t_ts t) iv)).
    split; [cbn [comp_bar_close fst]; now destruct (time_bar_indexer (t_ts t) iv)|].
    remember (fst (time_bar_indexer (t_ts t) iv)) as clock. remember (snd (time_bar_indexer (t_ts t) iv)) as idx.
    clear Heqclock Heqidx. assert (IV : 0 <= iv) by lia. clear G2 G3 G4 G5 G6 G7.
    assert (CA : forall i j, (i <= j < length clock)%nat -> nth i clock 0 <= nth j clock 0).
    { intros i j Hij. rewrite C in *. rewrite map_length, seq_length in Hij.
      assert (K : forall n, (n < N)%nat -> nth n (map (fun x => (a + Z.of_nat x) * iv) (seq 0 N)) 0 = (a + Z.of_nat n) * iv).
      { intros n Hx. rewrite (nth_indep _ 0 ((a + Z.of_nat 0) * iv)) by (rewrite map_length, seq_length; lia).
        change ((a + Z.of_nat 0) * iv) with ((fun x => (a + Z.of_nat x) * iv) 0%nat). rewrite map_nth, seq_nth by lia. reflexivity. }
      rewrite !K by lia. apply Z.mul_le_mono_nonneg_r; lia. }
    split; [|split].
    - intros i j Hij. rewrite (proj1 (P 0%nat)) in Hij. destruct (proj2 (P i) ltac:(lia)) as [B1 B2]. destruct (proj2 (P j) ltac:(lia)) as [B3 B4].
      destruct (Z.eq_dec (nth i idx 0) (-1)) as [->|]; [lia|].
      specialize (B2 (Z.to_nat (nth i idx 0)) ltac:(lia)). specialize (B4 (Z.to_nat (nth i idx 0)) ltac:(lia)).
      rewrite Z2Nat.id in B2, B4 by lia. apply B4. specialize (CA i j Hij). apply Z.le_trans with (nth i clock 0); [apply B2; lia|exact CA].
    - destruct idx as [|x idx]; [cbn; lia|]. destruct (P 0%nat) as [P1 P2]. cbn [hd]. cbn [length] in P1. destruct (P2 ltac:(lia)) as [B _]. cbn [nth] in B. lia.
    - intro i. destruct (Nat.lt_ge_cases i (length idx)) as [Hi|Hi].
      + destruct (P i) as [P1 P2]. destruct (P2 ltac:(lia)). lia.
      + rewrite nth_overflow by exact Hi. exact H1.
  Qed.

  (** With a side column, a positive tick size and at least one bar the three frames are returned. *)
  Theorem C128_succeeds : forall k t sd h tick mult jx, good_trades t -> good_kit k t -> t_side t = Some sd -> (0 < tick)%Q ->
    fst (exec (fresh k t) CIdx) = Ok (RIdx jx) -> jx <> [] ->
    (exists f, fst (exec (after (fresh k t) h) COhlcv) = Ok (ROhlcv f)) /\
    (exists g, fst (exec (after (fresh k t) h) CDir) = Ok (RDir g)) /\
    (exists fd, fst (exec (after (fresh k t) h) (CFoot (Some tick) mult)) = Ok (RFoot fd)).
  Proof.
    intros k t sd h tick mult jx T G SD TP E NE. pose proof (good_regular ln k t T G) as R.
    destruct (good_closes k t T G) as [cts [cix [EC [A [H1 _]]]]].
    assert (EX : forall c, fst (exec (after (fresh k t) h) c) = ideal ln log1p k t c).
    { intro c. apply exec_inv; [apply after_inv; [apply inv_fresh|exact R]|exact R]. }
    rewrite (proj2 (exec_inv ln log1p k t _ CIdx (inv_fresh ln k t) R)) in E. rewrite !EX. clear EX.
    assert (E2 : tl cix = jx) by (unfold ideal in E; rewrite EC in E; destruct k; injection E as E; exact E).
    destruct (comp_bar_ohlcv (t_px t) (t_am t) cix) as [bars|e] eqn:EO.
    2:{ exfalso. pose proof (proj2 (api_length (t_px t) (t_am t) cix)) as AL. destruct T as [_ [T1 T2]].
        rewrite (proj2 AL _ EO) in EO. apply (proj1 AL) in EO. destruct EO as [EO|EO]; [congruence|]. subst jx. destruct cix as [|? [|? ?]]; cbn in *; congruence || lia. }
    destruct (C18_builder_ok _ _ _ sd tick mult _ EO TP A H1) as [fps EF].
    split; [|split].
    - exists (combine (tl cts) bars). unfold ideal. rewrite EC, EO. now destruct k.
    - exists (combine (tl cts) (comp_bar_directional (t_px t) (t_am t) sd cix)). unfold ideal. rewrite EC, SD. now destruct k.
    - exists (to_fpdata (tl cts) tick fps). unfold ideal. rewrite EC, EO, SD, EF. now destruct k.
  Qed.

  Lemma nth_error_combine {A B} (l : list A) (m : list B) n a b : nth_error (combine l m) n = Some (a, b) -> nth_error l n = Some a /\ nth_error m n = Some b.
  Proof. revert m n. induction l as [|x l IH]; intros [|y m] [|n]; cbn; try discriminate; [|apply IH]. intro E. now injection E as -> ->. Qed.

  (** Frames obtained at any three moments of a builder's life agree bar by bar: labels, trade counts,
      volumes and dollars of the OHLCV frame are the sums of the buy and sell columns of the directional
      frame, and those are the sums over the price levels of the footprint. *)
  Theorem C128_consistent : forall k t sd h1 h2 h3 tick mult f g fd, good_trades t -> good_kit k t ->
    t_side t = Some sd -> length sd = length (t_ts t) -> (forall s, In s sd -> s = 1 \/ s = -1) -> (forall x, In x (t_am t) -> (0 <= x)%Q) ->
    fst (exec (after (fresh k t) h1) COhlcv) = Ok (ROhlcv f) ->
    fst (exec (after (fresh k t) h2) CDir) = Ok (RDir g) ->
    fst (exec (after (fresh k t) h3) (CFoot tick mult)) = Ok (RFoot fd) ->
    forall n, (n < length f)%nat -> exists lab b d,
      nth_error f n = Some (lab, b) /\ nth_error g n = Some (lab, d) /\ nth_error (fd_ts fd) n = Some lab /\
      (f_ticks_buy d + f_ticks_sell d = b_trades b)%Z /\ (f_vol_buy d + f_vol_sell d == b_volume b)%Q /\
      (f_dol_buy d + f_dol_sell d == b_vwap b * b_volume b)%Q /\
      (qsum (nth n (fd_bv fd) []) == f_vol_buy d)%Q /\ (qsum (nth n (fd_sv fd) []) == f_vol_sell d)%Q /\
      fold_right Z.add 0 (nth n (fd_bt fd) []) = f_ticks_buy d /\ fold_right Z.add 0 (nth n (fd_st fd) []) = f_ticks_sell d.
  Proof.
    intros k t sd h1 h2 h3 tick mult f g fd T G SD LS SV AV E1 E2 E3 n Hn. pose proof (good_regular ln k t T G) as R.
    destruct (good_closes k t T G) as [cts [cix [EC [A [H1 BD]]]]].
    assert (EX : forall h c, fst (exec (after (fresh k t) h) c) = ideal ln log1p k t c).
    { intros h c. apply exec_inv; [apply after_inv; [apply inv_fresh|exact R]|exact R]. }
    rewrite EX in E1, E2, E3. clear EX. pose proof (comp_lengths ln _ _ _ _ EC) as CL.
    assert (I1 : match comp_bar_ohlcv (t_px t) (t_am t) cix with Raise e => Raise e | Ok bars => Ok (ROhlcv (combine (tl cts) bars)) end = Ok (ROhlcv f))
      by (rewrite <- E1; unfold ideal; rewrite EC; now destruct k).
    assert (I2 : Ok (RDir (combine (tl cts) (comp_bar_directional (t_px t) (t_am t) sd cix))) = Ok (RDir g))
      by (rewrite <- E2; unfold ideal; rewrite EC, SD; now destruct k).
    assert (I3 : match comp_bar_ohlcv (t_px t) (t_am t) cix with
              | Raise e => Raise e
              | Ok bars =>
                  match (match tick with Some q => Ok q | None => comp_price_tick_size (t_px t) end) with
                  | Raise e => Raise e
                  | Ok q => match comp_bar_footprints (t_px t) (t_am t) cix sd q (map b_low bars) (map b_high bars) mult with
                                         | Raise e => Raise e
                                         | Ok l => Ok (RFoot (to_fpdata (tl cts) q l))
                            end
                  end
              end = Ok (RFoot fd)) by (rewrite <- E3; unfold ideal; rewrite EC, SD; now destruct k).
    clear E1 E2 E3. destruct (comp_bar_ohlcv (t_px t) (t_am t) cix) as [bars|e] eqn:EO; [|discriminate].
    destruct (match tick with Some q => Ok q | None => comp_price_tick_size (t_px t) end) as [q|e]; [|discriminate].
    destruct (comp_bar_footprints _ _ _ _ _ _ _ _) as [fps|e] eqn:EF; [|discriminate].
    injection I1 as <-. injection I2 as <-. injection I3 as <-.
    pose proof (proj1 (api_length _ _ _) _ EO) as AL. pose proof (foot_length _ _ _ _ _ _ _ _ _ EF) as FL.
    rewrite combine_length in Hn.
    assert (DL : length (comp_bar_directional (t_px t) (t_am t) sd cix) = (length cix - 1)%nat) by (unfold comp_bar_directional; now rewrite map_length, seq_length).
    assert (TL : length (tl cts) = (length cix - 1)%nat) by (destruct cts; cbn in *; lia).
    destruct (nth_error (combine (tl cts) bars) n) as [[lab b]|] eqn:N1; [|apply nth_error_None in N1; rewrite combine_length in N1; lia].
    destruct (nth_error (combine (tl cts) (comp_bar_directional (t_px t) (t_am t) sd cix)) n) as [[lab2 d]|] eqn:N2; [|apply nth_error_None in N2; rewrite combine_length in N2; lia].
    destruct (nth_error_combine _ _ _ _ _ N1) as [M1 M2]. destruct (nth_error_combine _ _ _ _ _ N2) as [M3 M4].
    assert (lab2 = lab) by congruence. subst lab2.
    destruct (nth_error fps n) as [fp|] eqn:N3; [|apply nth_error_None in N3; lia].
    exists lab, b, d. split; [reflexivity|]. split; [reflexivity|]. split; [exact M1|].
    assert (SE : -1 <= nth n cix 0 <= nth (S n) cix 0).
    { split; [|apply A; lia]. apply Z.le_trans with (nth 0 cix 0); [destruct cix; cbn in *; lia|apply A; lia]. }
    assert (SG : forall j, nth n cix 0 < j <= nth (S n) cix 0 -> zat sd j = 1 \/ zat sd j = -1).
    { intros j Hj. specialize (BD (S n)). unfold zat. apply SV. apply nth_In. lia. }
    destruct (C13_add_up _ _ _ _ _ _ _ _ M4 EO M2 SE SG AV) as [Q1 [Q2 Q3]].
    pose proof (C17_totals _ _ _ _ _ _ _ _ _ _ _ EF N3 SE) as QT. cbv zeta in QT. rewrite <- (api_dir _ _ _ _ _ _ M4) in QT.
    destruct QT as [Q4 [Q5 [Q6 Q7]]].
    assert (NF : forall (B : Type) (d0 : B) (sel : footprint -> B), nth n (map sel fps) d0 = sel fp).
    { intros B d0 sel. apply nth_error_nth. now apply map_nth_error. }
    cbn [to_fpdata fd_bv fd_sv fd_bt fd_st]. rewrite !NF. repeat split; assumption.
  Qed.
End B3.

(* ------------------------------------------------------------------ *)
(** ** Concrete cases and refutations *)

Definition xb_t : trades :=
  mkTr [1600000000000000000; 1600000030000000000; 1600000080000000000; 1600000080000000000; 1600000200000000000]
       [100; 101; 99; 102; 100]%Q [1; 2; 3; 1; 2]%Q (Some [1; -1; -1; 1; 1]).
Definition xb_id (x : Q) : Q := (x - 1)%Q.
Definition xb_time : kit := KTime 64000000000.
Definition xb_cusum : kit := KCusum [None; Some (1 # 100); None; None; Some (1 # 50)]%Q (1 # 1000) 1.

Lemma xb_asc : ascZ (t_ts xb_t).
Proof. intros i j H. cbn in H. destruct i as [|[|[|[|[|i]]]]], j as [|[|[|[|[|j]]]]]; cbn; lia. Qed.
Lemma xb_good : good_trades xb_t /\ good_kit xb_time xb_t /\ good_kit (KTick 2) xb_t /\ good_kit xb_cusum xb_t.
Proof.
  split; [split; [discriminate|split; reflexivity]|]. split; [|split; [exact I|reflexivity]].
  split; [exact xb_asc|]. split; [vm_compute; discriminate|]. split; [exists 250000000; reflexivity|].
  split; [vm_compute; discriminate|]. split; [reflexivity|]. split; [reflexivity|]. right. vm_compute. reflexivity.
Qed.

(** A history with a failing call and footprints before the OHLCV frame. *)
Example C125_example : good_trades xb_t /\ good_kit xb_time xb_t /\
  fst (exec xb_id xb_id (fresh xb_time xb_t) CSigma) = Raise TypeError /\
  fst (exec xb_id xb_id (after xb_id xb_id (fresh xb_time xb_t) [CSigma; CFoot (Some 1%Q) 2; CTs]) COhlcv) =
    fst (exec xb_id xb_id (fresh xb_time xb_t) COhlcv) /\
  (exists f, fst (exec xb_id xb_id (fresh xb_time xb_t) COhlcv) = Ok (ROhlcv f) /\ length f = 4%nat).
Proof.
  split; [exact (proj1 xb_good)|]. split; [exact (proj1 (proj2 xb_good))|]. split; [reflexivity|].
  split; [vm_compute; reflexivity|]. eexists. split; vm_compute; reflexivity.
Qed.
(** One-millisecond time bars: the float64 clock is not evenly spaced in nanoseconds, pandas rejects
    its frequency, and the first request for footprints raises while the same request made again
    succeeds, because the highs and lows were stored before the failure. *)
Theorem C125_history_refuted : exists k t c h, good_trades t /\ ascZ (t_ts t) /\
  fst (exec xb_id xb_id (fresh k t) c) = Raise ValueError /\
  exists fd, fst (exec xb_id xb_id (after xb_id xb_id (fresh k t) h) c) = Ok (RFoot fd) /\ length (fd_ts fd) = 3%nat.
Proof.
  exists (KTime 1000000), (mkTr [1600000000000000000; 1600000000002500000] [100; 101]%Q [1; 2]%Q (Some [1; -1])), (CFoot (Some 1%Q) 2), [CFoot (Some 1%Q) 2].
  split; [split; [discriminate|split; reflexivity]|]. split; [intros [|[|i]] [|[|j]] H; cbn in *; lia|].
  split; [vm_compute; reflexivity|]. eexists. split; vm_compute; reflexivity.
Qed.

Example C126_example : good_trades xb_t /\ good_kit xb_cusum xb_t /\ ascZ (t_ts xb_t) /\
  fst (exec xb_id xb_id (fresh xb_cusum xb_t) CTs) = Ok (RTs [1600000080000000000]) /\
  fst (exec xb_id xb_id (fresh (KTick 2) xb_t) CIdx) = Ok (RIdx [1; 3]) /\
  fst (exec xb_id xb_id (fresh (KVolume 3) xb_t) CIdx) = Ok (RIdx [1; 2; 4]) /\
  fst (exec xb_id xb_id (fresh (KDollar 302) xb_t) CIdx) = Ok (RIdx [1; 3]) /\
  fst (exec xb_id xb_id (fresh (KTick 2) xb_t) CTs) = Ok (RTs [1600000030000000000; 1600000080000000000]) /\
  fst (exec xb_id xb_id (fresh xb_time xb_t) CTs) =
    Ok (RTs [1600000064000000000; 1600000128000000000; 1600000192000000000; 1600000256000000000]).
Proof.
  split; [exact (proj1 xb_good)|]. split; [apply xb_good|]. split; [exact xb_asc|]. repeat split; vm_compute; reflexivity.
Qed.
(** Labels need not be unique: tick bars that close inside a block of equal timestamps. *)
Theorem C126_unique_refuted : exists t ix, good_trades t /\ ascZ (t_ts t) /\
  fst (exec xb_id xb_id (fresh (KTick 1) t) CTs) = Ok (RTs ix) /\ nth 0 ix 0 = nth 1 ix 0 /\ length ix = 2%nat.
Proof.
  exists (mkTr [5; 7; 7] [1; 1; 1]%Q [1; 1; 1]%Q None), [7; 7]. split; [split; [discriminate|split; reflexivity]|].
  split; [intros [|[|[|i]]] [|[|[|j]]] H; cbn in *; lia|]. repeat split.
Qed.
(** Millisecond bars: the OHLCV frame cannot be built at all. *)
Theorem C126_millisecond_refuted : exists t, good_trades t /\ ascZ (t_ts t) /\
  fst (exec xb_id xb_id (fresh (KTime 1000000) t) COhlcv) = Raise ValueError /\
  fst (exec xb_id xb_id (after xb_id xb_id (fresh (KTime 1000000) t) [COhlcv; CTs]) COhlcv) = Raise ValueError /\
  exists g, fst (exec xb_id xb_id (fresh (KTime 1000000) t) CDir) = Ok (RDir g).
Proof.
  exists (mkTr [1600000000000000000; 1600000000002500000] [100; 101]%Q [1; 2]%Q (Some [1; -1])).
  split; [split; [discriminate|split; reflexivity]|]. split; [intros [|[|i]] [|[|j]] H; cbn in *; lia|].
  split; [vm_compute; reflexivity|]. split; [vm_compute; reflexivity|]. eexists. vm_compute. reflexivity.
Qed.

Example C127_example : first_known [None; Some (1 # 100); None; None; Some (1 # 50)]%Q 1 /\
  fst (exec xb_id xb_id (fresh xb_cusum xb_t) CSigma) = Ok (RSigma [Some (1 # 100)])%Q /\
  bd_kit (snd (exec xb_id xb_id (fresh xb_cusum xb_t) CTs)) =
    KCusum [None; Some (1 # 100); Some (1 # 100); Some (1 # 100); Some (1 # 50)]%Q (1 # 1000) 1.
Proof.
  split; [|split; vm_compute; reflexivity]. split; [now exists (1 # 100)%Q|]. intros [|j] H; [reflexivity|lia].
Qed.
(** The array passed by the caller is changed by the first call that needs the closes. *)
Theorem C127_input_kept_refuted : exists sigma t, good_trades t /\ length sigma = length (t_ts t) /\
  bd_kit (snd (exec xb_id xb_id (fresh (KCusum sigma 1 1) t) CTs)) <> KCusum sigma 1 1.
Proof.
  exists [Some 1%Q; None; None; None; None], xb_t. split; [exact (proj1 xb_good)|]. split; [reflexivity|]. vm_compute. discriminate.
Qed.

Example C128_example : exists f g fd,
  fst (exec xb_id xb_id (fresh (KTick 2) xb_t) COhlcv) = Ok (ROhlcv f) /\
  fst (exec xb_id xb_id (fresh (KTick 2) xb_t) CDir) = Ok (RDir g) /\
  fst (exec xb_id xb_id (fresh (KTick 2) xb_t) (CFoot (Some 1%Q) 2)) = Ok (RFoot fd) /\
  length f = 2%nat /\ (forall s, In s [1; -1; -1; 1; 1] -> s = 1 \/ s = -1) /\
  map (fun r => b_volume (snd r)) f = [2; 4]%Q /\ map (fun r => f_vol_buy (snd r)) g = [0; 1]%Q /\ map qsum (fd_sv fd) = [2; 3]%Q.
Proof.
  do 3 eexists. split; [vm_compute; reflexivity|]. split; [vm_compute; reflexivity|]. split; [vm_compute; reflexivity|].
  split; [reflexivity|]. split; [cbn; intuition lia|]. repeat split; vm_compute; reflexivity.
Qed.

Print Assumptions C125_information_bars.
Print Assumptions C125_time_bars.
Print Assumptions C126_labels.
Print Assumptions C126_information_labels.
Print Assumptions C126_positions.
Print Assumptions C126_cusum_labels.
Print Assumptions C126_time_labels.
Print Assumptions C127_second_builder.
Print Assumptions C127_get_sigma.
Print Assumptions C128_succeeds.
Print Assumptions C128_consistent.
Print Assumptions C125_history_refuted.
Print Assumptions C126_unique_refuted.
Print Assumptions C126_millisecond_refuted.
Print Assumptions C127_input_kept_refuted.
