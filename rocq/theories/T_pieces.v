(** T_pieces.v -- C175: time bars built month by month (io.py L441-514 [AddTimeBarH5.process_key], kit.py
    [TimeBarKit], base.py L132-169 [build_ohlcv]) compared with time bars built of all the trades. *)
From Verif Require Import Base M_logic M_bars M_builder S_pieces P_pieces P_shift P_shift2 P_time P_tbm.
Open Scope Z_scope.

(** Two pieces with a tick of the clock between them: the bars of all the trades are the bars of the first piece,
    quiet bars at its last price, and the bars of the second piece. *)
Theorem C175_two ln I t u f g : 512 <= I -> (512 | I) -> recent I t -> recent I u -> tick_between I t u ->
  time_bars ln I t = Ok f -> time_bars ln I u = Ok g ->
  f <> [] /\ g <> [] /\
  exists n, (forall d, fst (hd d g) = fst (last f d) + (Z.of_nat n + 1) * I) /\
    (forall d, time_bars ln I (joined t u) = Ok (f ++ quiet I (fst (last f d)) (last (t_px t) 0%Q) n ++ g)).
Proof.
  intros HI DI Ht Hu Hb Ef Eg. destruct (pieces_two ln I t u HI DI Ht Hu Hb f g Ef Eg) as (n & E & En & A & B & Ff & Fg).
  assert (L : forall d, fst (last f d) = tick_hi I t * I).
  { intro d. rewrite Ff, (zrange_app (tick_lo I t + 1) (tick_hi I t)) by lia. rewrite map_app.
    rewrite last_app_ne; [|replace (tick_hi I t + 1) with (Z.succ (tick_hi I t)) by lia; unfold zrange;
      replace (Z.to_nat (Z.succ (tick_hi I t) - tick_hi I t)) with 1%nat by lia; discriminate].
    unfold zrange at 1. replace (Z.to_nat (tick_hi I t + 1 - tick_hi I t)) with 1%nat by lia. cbn [seq map last bar_at fst]. f_equal. lia. }
  assert (R : forall d, fst (hd d g) = (tick_lo I u + 1) * I).
  { intro d. rewrite Fg. unfold zrange. destruct (Z.to_nat (tick_hi I u + 1 - (tick_lo I u + 1))) as [|k] eqn:K; [lia|].
    cbn [seq map hd bar_at fst]. f_equal. lia. }
  split; [|split].
  - rewrite Ff. unfold zrange. destruct (Z.to_nat (tick_hi I t + 1 - (tick_lo I t + 1))) as [|k] eqn:K; [lia|discriminate].
  - rewrite Fg. unfold zrange. destruct (Z.to_nat (tick_hi I u + 1 - (tick_lo I u + 1))) as [|k] eqn:K; [lia|discriminate].
  - exists n. split; intro d; [rewrite R, L; nia|]. rewrite L. exact E.
Qed.

Lemma joined_all_hd u ts : t_ts u <> [] -> hd 0 (t_ts (joined_all u ts)) = hd 0 (t_ts u).
Proof. intro H. destruct ts as [|v ts]; [reflexivity|]. cbn [joined_all joined t_ts]. destruct (t_ts u); [easy|reflexivity]. Qed.

(** Any number of pieces, such as the months of a file. *)
Theorem C175_pieces ln I : 512 <= I -> (512 | I) -> forall ts t, (forall u, In u (t :: ts) -> recent I u) -> separated I t ts ->
  (forall u, In u (t :: ts) -> exists f, time_bars ln I u = Ok f) ->
  exists f, time_bars ln I (joined_all t ts) = Ok f /\ assembled ln I (t :: ts) f.
Proof.
  intros HI DI ts t HR HS HB.
  assert (G : recent I (joined_all t ts) /\ exists f, time_bars ln I (joined_all t ts) = Ok f /\ assembled ln I (t :: ts) f).
  { revert t HR HS HB. induction ts as [|u ts IH]; intros t HR HS HB.
    - split; [apply HR; now left|]. destruct (HB t (or_introl eq_refl)) as [f E]. exists f. split; [exact E|]. now constructor.
    - destruct HS as [Hb HS]. destruct (IH u) as (RU & g & Eg & Ag).
      { intros v Hv. apply HR. now right. } { exact HS. } { intros v Hv. apply HB. now right. }
      destruct (HB t (or_introl eq_refl)) as [f Ef]. pose proof (HR t (or_introl eq_refl)) as RT.
      assert (Hb' : tick_between I t (joined_all u ts)).
      { destruct (HR u (or_intror (or_introl eq_refl))) as (Nu & _). unfold tick_between. rewrite joined_all_hd by exact Nu. exact Hb. }
      split; [exact (joined_recent I t _ RT RU Hb')|].
      destruct (C175_two ln I t (joined_all u ts) f g HI DI RT RU Hb' Ef Eg) as (Nf & Ng & n & L & E).
      eexists. split; [exact (E (0, mkOhlcv 0 0 0 0 0 0 0 0))|]. apply (as_more ln I t u ts f n g Ef Nf Ag).
      intros x Hx. specialize (L x). destruct g as [|y g]; [easy|]. injection Hx as ->. exact L. }
  exact (proj2 G).
Qed.

(** ** Examples: two days around the first of November 2023, bars of a second *)
Definition x5_I : Z := 1000000000.
(** 2023-11-01 00:00:00 UTC *)
Definition x5_B : Z := 1698796800 * 1000000000.
Definition x5_t : trades := mkTr (map (fun d => x5_B + d) [-3400000000; -3100000000; -1500000000; -1000000000])
  [100; 101; 99; 102]%Q [2; 1; 3; 1]%Q (Some [1; -1; 1; 1]).
Definition x5_u : trades := mkTr (map (fun d => x5_B + d) [1200000000; 1700000000; 2600000000])
  [105; 104; 100]%Q [5; 1; 2]%Q (Some [-1; 1; -1]).
Definition x5_v : trades := mkTr (map (fun d => x5_B + d) [3100000000; 4000000000]) [98; 97]%Q [1; 1]%Q (Some [-1; -1]).
Definition x5_ln (x : Q) : Q := x.
Lemma ascZ_check l : forallb (fun p => fst p <=? snd p) (combine l (tl l)) = true -> ascZ l.
Proof.
  intros H i j [Hij Hj]. induction j as [|j IH]; [replace i with 0%nat by lia; lia|].
  destruct (Nat.eq_dec i (S j)) as [->|]; [lia|]. specialize (IH ltac:(lia) ltac:(lia)).
  assert (nth j l 0 <= nth (S j) l 0); [|lia]. clear IH Hij n. revert j Hj. induction l as [|x l IHl]; intros j Hj; [cbn in Hj; lia|].
  destruct l as [|y l]; [cbn in Hj; lia|]. cbn [tl combine forallb fst snd] in H. apply andb_true_iff in H as [H1 H2].
  destruct j as [|j]; [apply Z.leb_le; exact H1|]. apply IHl; [exact H2|cbn in *; lia].
Qed.
Ltac recent_tac := split; [discriminate|split; [reflexivity|split; [reflexivity|split; [apply ascZ_check; vm_compute; reflexivity|vm_compute; split; congruence]]]].
Example C175_hyp : 512 <= x5_I /\ (512 | x5_I) /\ recent x5_I x5_t /\ recent x5_I x5_u /\ recent x5_I x5_v /\
  separated x5_I x5_t [x5_u; x5_v].
Proof.
  split; [unfold x5_I; lia|]. split; [exists 1953125; reflexivity|]. split; [recent_tac|]. split; [recent_tac|]. split; [recent_tac|].
  split; [split; [exists 1698796801; vm_compute; split; congruence|]|split; [split; [exists 1698796803; vm_compute; split; congruence|]|exact Logic.I]].
  - split; [left; reflexivity|]. vm_compute. auto.
  - split; [right; reflexivity|]. vm_compute. auto.
Qed.
(** Two bars of the first piece, two of the second, and a quiet bar of each second between them. *)
Example C175_example : exists f g,
  time_bars x5_ln x5_I x5_t = Ok f /\ time_bars x5_ln x5_I x5_u = Ok g /\ map (fun b => fst b - x5_B) f = [-3000000000; -2000000000; -1000000000] /\
  map (fun b => (b_open (snd b), b_close (snd b), b_trades (snd b))) f =
    [(100%Q, 101%Q, 2); (101%Q, 101%Q, 0); (99%Q, 102%Q, 2)] /\
  map (fun b => fst b - x5_B) g = [2000000000; 3000000000] /\
  time_bars x5_ln x5_I (joined x5_t x5_u) = Ok (f ++ quiet x5_I (x5_B - 1000000000) 102%Q 2 ++ g).
Proof. eexists. eexists. split; [vm_compute; reflexivity|]. split; [vm_compute; reflexivity|]. repeat split; vm_compute; reflexivity. Qed.
Example C175_pieces_example : exists f, time_bars x5_ln x5_I (joined_all x5_t [x5_u; x5_v]) = Ok f /\ length f = 8%nat /\
  map (fun b => b_trades (snd b)) f = [2; 0; 2; 0; 0; 2; 1; 2].
Proof. eexists. split; [vm_compute; reflexivity|]. split; vm_compute; reflexivity. Qed.

(** ** What a piecewise construction loses *)
(** A piece whose first trade is exactly on a tick: that trade is in no bar of the piece, but it is in a bar of all
    the trades. *)
Definition x5_w : trades := mkTr (map (fun d => x5_B + d) [0; 1700000000; 2600000000]) [103; 104; 100]%Q [5; 1; 2]%Q (Some [-1; 1; -1]).
Theorem C175_on_the_tick_refuted : exists ln I t u f g h,
  512 <= I /\ (512 | I) /\ recent I t /\ recent I u /\ (exists m, last (t_ts t) 0 <= m * I <= hd 0 (t_ts u)) /\
  time_bars ln I t = Ok f /\ time_bars ln I u = Ok g /\ time_bars ln I (joined t u) = Ok h /\
  (fold_right Z.add 0 (map (fun b => b_trades (snd b)) (f ++ g)) < fold_right Z.add 0 (map (fun b => b_trades (snd b)) h)) /\
  Qeq (b_high (snd (nth 3 h (0, mkOhlcv 0 0 0 0 0 0 0 0)))) 103 /\ (forall b, In b (f ++ g) -> fst b <> hd 0 (t_ts u)).
Proof.
  exists x5_ln, x5_I, x5_t, x5_w. eexists. eexists. eexists.
  split; [unfold x5_I; lia|]. split; [exists 1953125; reflexivity|]. split; [recent_tac|]. split; [recent_tac|].
  split; [exists 1698796800; vm_compute; split; congruence|].
  split; [vm_compute; reflexivity|]. split; [vm_compute; reflexivity|]. split; [vm_compute; reflexivity|].
  split; [vm_compute; reflexivity|]. split; [vm_compute; reflexivity|].
  intros b Hb. vm_compute in Hb |- *. intuition (subst b; discriminate).
Qed.
(** The end of the first piece and the start of the second in one interval: two bars of the same label. *)
Definition x5_y : trades := mkTr (map (fun d => x5_B + d) [-3400000000; -3100000000; -1500000000; 500000000])
  [100; 101; 99; 102]%Q [2; 1; 3; 1]%Q (Some [1; -1; 1; 1]).
Definition x5_z : trades := mkTr (map (fun d => x5_B + d) [700000000; 1700000000; 2600000000]) [103; 104; 100]%Q [5; 1; 2]%Q (Some [-1; 1; -1]).
Theorem C175_same_interval_refuted : exists ln I t u f g d,
  512 <= I /\ (512 | I) /\ recent I t /\ recent I u /\ last (t_ts t) 0 < hd 0 (t_ts u) /\
  time_bars ln I t = Ok f /\ time_bars ln I u = Ok g /\ fst (last f d) = fst (hd d g) /\ f <> [] /\ g <> [].
Proof.
  exists x5_ln, x5_I, x5_y, x5_z. eexists. eexists. exists (0, mkOhlcv 0 0 0 0 0 0 0 0).
  split; [unfold x5_I; lia|]. split; [exists 1953125; reflexivity|]. split; [recent_tac|]. split; [recent_tac|].
  split; [vm_compute; reflexivity|].
  split; [vm_compute; reflexivity|]. split; [vm_compute; reflexivity|]. split; [vm_compute; reflexivity|]. split; vm_compute; discriminate.
Qed.
(** The directional features of the first bar of a piece look at a trade before it: the spread is not the same. *)
Theorem C175_directional_refuted : exists ln I t u f g h d,
  512 <= I /\ (512 | I) /\ recent I t /\ recent I u /\ tick_between I t u /\
  fst (build_directional ln (fresh (KTime I) t)) = Ok f /\ fst (build_directional ln (fresh (KTime I) u)) = Ok g /\
  fst (build_directional ln (fresh (KTime I) (joined t u))) = Ok h /\
  fst (nth 0 g d) = fst (nth 5 h d) /\ (f_max_spread (snd (nth 0 g d)) == 1)%Q /\ (f_max_spread (snd (nth 5 h d)) == 3)%Q.
Proof.
  exists x5_ln, x5_I, x5_t, x5_u. eexists. eexists. eexists.
  exists (0, mkDir 0 0 0 0 0 0 NaN 0 0 0 0 0 0 0).
  destruct C175_hyp as (A & B & C & D & _ & S). destruct S as [S _].
  split; [exact A|]. split; [exact B|]. split; [exact C|]. split; [exact D|]. split; [exact S|].
  split; [vm_compute; reflexivity|]. split; [vm_compute; reflexivity|]. split; [vm_compute; reflexivity|].
  split; [vm_compute; reflexivity|]. split; vm_compute; reflexivity.
Qed.
(** Bars of a number of trades start anew with every piece. *)
Definition x5_s : trades := mkTr (map (fun d => x5_B + d) [3100000000; 4000000000; 5100000000; 6200000000; 7300000000])
  [98; 97; 98; 99; 100]%Q [1; 1; 1; 1; 1]%Q (Some [-1; -1; 1; 1; 1]).
Theorem C175_tick_bars_refuted : exists ln t u f g h,
  recent 512 t /\ recent 512 u /\ last (t_ts t) 0 < hd 0 (t_ts u) /\
  fst (build_ohlcv ln (fresh (KTick 2) t)) = Ok f /\ fst (build_ohlcv ln (fresh (KTick 2) u)) = Ok g /\
  fst (build_ohlcv ln (fresh (KTick 2) (joined t u))) = Ok h /\ g <> [] /\
  (forall x y, In x g -> In y h -> fst x <> fst y).
Proof.
  exists x5_ln, x5_u, x5_s. eexists. eexists. eexists.
  split; [recent_tac|]. split; [recent_tac|]. split; [vm_compute; reflexivity|].
  split; [vm_compute; reflexivity|]. split; [vm_compute; reflexivity|]. split; [vm_compute; reflexivity|]. split; [discriminate|].
  intros x y Hx Hy. vm_compute in Hx, Hy. intuition (subst x y; discriminate).
Qed.

Print Assumptions C175_two.
Print Assumptions C175_pieces.
Print Assumptions C175_on_the_tick_refuted.
Print Assumptions C175_same_interval_refuted.
Print Assumptions C175_directional_refuted.
Print Assumptions C175_tick_bars_refuted.
