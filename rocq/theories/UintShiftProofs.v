(** Proofs about big integers: shifts, bit length, division, bytes. *)
From Verif Require Import Base UintModel UintSpec UintProofs.
Local Open Scope N_scope.

Lemma rfold_seq_inv {S E} (P : nat -> S -> Prop) (f : S -> nat -> res E S) n k s :
  P k s -> (forall i s, (k <= i < k + n)%nat -> P i s -> exists s', f s i = Ok s' /\ P (Datatypes.S i) s') ->
  exists s', rfold f (seq k n) s = Ok s' /\ P (k + n)%nat s'.
Proof.
  revert k s. induction n as [|n IH]; intros k s H0 Hstep; cbn [seq rfold].
  - exists s. split; [done|]. by rewrite Nat.add_0_r.
  - destruct (Hstep k s) as (s1 & E1 & H1); [lia|done|]. rewrite E1.
    destruct (IH (Datatypes.S k) s1 H1) as (s2 & E2 & H2).
    + intros i s' Hi. apply Hstep. lia.
    + exists s2. split; [done|]. by replace (k + Datatypes.S n)%nat with (Datatypes.S k + n)%nat by lia.
Qed.
Lemma words_lookup n a k : words n a -> (k < n)%nat -> a !! k = Some (nth k a 0).
Proof. intros [H _] Hk. destruct (nth_lookup_or_length a k 0); [done|lia]. Qed.
Lemma words_digit n a i : words n a -> nth i a 0 = uval a / W ^ N.of_nat i mod W.
Proof. intros [_ H]. by apply (number_digit W W_gt1). Qed.
Lemma W_pos : 0 < W. Proof. pose proof W_gt1; lia. Qed.
Lemma Wpow_pos k : 0 < W ^ k. Proof. apply N.neq_0_lt_0, N.pow_nonzero. pose proof W_gt1; lia. Qed.
Lemma two_pow_pos k : 0 < 2 ^ k. Proof. apply N.neq_0_lt_0, N.pow_nonzero. lia. Qed.
Lemma W_nz : W <> 0. Proof. pose proof W_gt1; lia. Qed.
Lemma Wpow_nz k : W ^ k <> 0. Proof. apply N.pow_nonzero, W_nz. Qed.
Lemma two_pow_nz k : 2 ^ k <> 0. Proof. apply N.pow_nonzero. lia. Qed.
Lemma mul_nz a b : a <> 0 -> b <> 0 -> a * b <> 0. Proof. lia. Qed.
Ltac nz := auto using W_nz, Wpow_nz, two_pow_nz, mul_nz.
Lemma mod_intro M T u q : u < M -> T = u + M * q -> u = T mod M.
Proof. intros H ->. rewrite (N.mul_comm M), N.mod_add by lia. by rewrite N.mod_small. Qed.
Lemma W_split bs : bs <= 64 -> W = 2 ^ bs * 2 ^ (64 - bs).
Proof. intros H. rewrite <- N.pow_add_r. replace (bs + (64 - bs)) with 64 by lia. done. Qed.

Lemma add_at_spec n r k v : words n r -> (k < n)%nat -> nth k r 0 + v < W ->
  exists r', add_at r k v = Ok r' /\ words n r' /\ uval r' = uval r + W ^ N.of_nat k * v /\
    (forall j, j <> k -> nth j r' 0 = nth j r 0).
Proof.
  intros Hr Hk Hv. unfold add_at. rewrite (words_lookup n) by done. rewrite (proj2 (N.ltb_lt _ _) Hv).
  eexists. split; [done|]. split; [by apply words_insert|]. split.
  - pose proof (number_insert W r k (nth k r 0) (nth k r 0 + v) (words_lookup n r k Hr Hk)) as E.
    unfold uval. rewrite W_pow. rewrite N.mul_add_distr_l in E. lia.
  - intros j Hj. rewrite !nth_lookup. by rewrite list_lookup_insert_ne by done.
Qed.

Lemma number_firstn_S l i : (i < length l)%nat ->
  number W (firstn (S i) l) = number W (firstn i l) + W ^ N.of_nat i * nth i l 0.
Proof.
  intros Hi. destruct (nth_lookup_or_length l i 0) as [E|E]; [|lia].
  rewrite (take_S_r l i _ E), number_app. rewrite firstn_length_le by lia. cbn [number]. lia.
Qed.
Lemma number_firstn_bound l i : Forall (fun w => w < W) l -> (i <= length l)%nat -> number W (firstn i l) < W ^ N.of_nat i.
Proof.
  intros H Hi. rewrite <- (firstn_length_le l Hi) at 2. apply (number_bound W W_gt1). by apply Forall_take.
Qed.

Lemma ushl_spec n a shift : words n a ->
  exists r, ushl a shift = Ok r /\ words n r /\ uval r = (uval a * 2 ^ shift) mod capacity n.
Proof.
  intros Ha. pose proof Ha as [Hl Hf]. unfold ushl. set (ws := N.to_nat (shift / 64)). set (bs := shift mod 64).
  assert (Hbs : bs < 64) by (apply N.mod_lt; lia).
  assert (Hsh : 2 ^ shift = W ^ N.of_nat ws * 2 ^ bs).
  { unfold ws. rewrite N2Nat.id. unfold bs. rewrite <- W_pow, <- N.pow_mul_r, <- N.pow_add_r. f_equal. apply N.div_mod. lia. }
  clearbody ws bs. rewrite Hl. rewrite capacity_W.
  destruct (rfold_seq_inv (fun i ret => words n ret /\ uval ret = (number W (firstn i a) * 2 ^ shift) mod W ^ N.of_nat n)
    (shl_step a ws bs) n 0 (zero n)) as (r & Er & Hr & E).
  - split; [apply words_zero|]. cbn [firstn number]. rewrite uval_zero, N.mul_0_l, N.mod_0_l; [done|]. nz.
  - intros i ret Hi [Hret Eret]. unfold shl_step. rewrite (proj2 (N.ltb_lt bs 64)) by lia. rewrite Hl.
    cbn [andb]. set (x := nth i a 0). assert (Hx : x < W) by (by apply (words_nth n)).
    rewrite number_firstn_S by lia. fold x. set (X := number W (firstn i a)) in *.
    assert (HX : X < W ^ N.of_nat i) by (apply number_firstn_bound; [done|lia]). clearbody x X.
    assert (Ewi : W ^ N.of_nat (i + ws) = W ^ N.of_nat i * W ^ N.of_nat ws) by (rewrite Nat2N.inj_add, N.pow_add_r; done).
    rewrite N.mul_add_distr_r.
    replace (W ^ N.of_nat i * x * 2 ^ shift) with (W ^ N.of_nat (i + ws) * (2 ^ bs * x)) by (rewrite Hsh, Ewi; lia).
    destruct (Nat.ltb_spec (i + ws) n) as [Hk|Hk].
    + set (k := (i + ws)%nat) in *.
      assert (HXs : X * 2 ^ shift < W ^ N.of_nat k * 2 ^ bs).
      { rewrite Hsh, Ewi, N.mul_assoc. apply N.mul_lt_mono_pos_r; [apply two_pow_pos|].
        apply N.mul_lt_mono_pos_r; [apply Wpow_pos|done]. }
      assert (H2bs : 2 ^ bs < W). { rewrite <- W_pow. apply N.pow_lt_mono_r; lia. }
      assert (Hk1 : W ^ N.of_nat (S k) = W ^ N.of_nat k * W) by (rewrite Nat2N.inj_succ, N.pow_succ_r'; lia).
      assert (Hkn : W ^ N.of_nat (S k) <= W ^ N.of_nat n). { apply N.pow_le_mono_r; [pose proof W_gt1|]; lia. }
      assert (HXk : X * 2 ^ shift < W ^ N.of_nat (S k)).
      { etransitivity; [exact HXs|]. rewrite Hk1. apply N.mul_lt_mono_pos_l; [apply Wpow_pos|done]. }
      rewrite N.mod_small in Eret by lia.
      assert (Hy : nth k ret 0 < 2 ^ bs).
      { rewrite (words_digit n) by done. eapply N.le_lt_trans; [apply N.mod_le; nz|].
        apply N.div_lt_upper_bound; [nz|]. by rewrite Eret. }
      assert (Hy2 : nth (S k) ret 0 = 0).
      { rewrite (words_digit n) by done. rewrite N.div_small by (by rewrite Eret). apply N.mod_0_l. nz. }
      rewrite N.shiftl_mul_pow2, N.shiftr_div_pow2.
      set (v1 := (x * 2 ^ bs) mod W). set (v2 := x / 2 ^ (64 - bs)).
      assert (Ev : x * 2 ^ bs = v1 + W * v2).
      { unfold v1, v2. assert (x / 2 ^ (64 - bs) = (x * 2 ^ bs) / W) as ->.
        { rewrite (W_split bs) by lia. rewrite (N.mul_comm x). symmetry. apply N.div_mul_cancel_l; nz. }
        rewrite N.add_comm. apply N.div_mod. nz. }
      assert (Hv1 : v1 + 2 ^ bs <= W).
      { unfold v1. rewrite (W_split bs) by lia. rewrite (N.mul_comm x).
        rewrite N.mul_mod_distr_l by nz.
        assert (x mod 2 ^ (64 - bs) < 2 ^ (64 - bs)) by (apply N.mod_lt; pose proof (two_pow_pos (64-bs)); lia).
        replace (2 ^ bs * (x mod 2 ^ (64 - bs)) + 2 ^ bs) with (2 ^ bs * (x mod 2 ^ (64 - bs) + 1)) by lia.
        apply N.mul_le_mono_l. lia. }
      assert (Hv2 : v2 < 2 ^ bs).
      { unfold v2. apply N.div_lt_upper_bound; [nz|]. rewrite N.mul_comm, <- W_split by lia. done. }
      clearbody v1 v2.
      destruct (add_at_spec n ret k v1 Hret Hk) as (r1 & Er1 & Hr1 & Eu1 & Hn1); [lia|]. rewrite Er1. cbn [rbind].
      replace (k + 1)%nat with (S k) by lia.
      assert (Hdone : forall r, words n r -> (exists q, X * 2 ^ shift + W ^ N.of_nat k * (2 ^ bs * x) = uval r + W ^ N.of_nat n * q) ->
        words n r /\ uval r = (X * 2 ^ shift + W ^ N.of_nat k * (2 ^ bs * x)) mod W ^ N.of_nat n).
      { intros r Hr [q Hq]. split; [done|]. apply (mod_intro _ _ _ q); [|done]. rewrite <- capacity_W. by apply uval_bound. }
      assert (Etot : W ^ N.of_nat k * (2 ^ bs * x) = W ^ N.of_nat k * v1 + W ^ N.of_nat (S k) * v2).
      { rewrite (N.mul_comm (2 ^ bs)), Ev, Hk1. lia. }
      destruct (N.ltb_spec 0 bs) as [Hb0|Hb0]; cbn [andb].
      * destruct (Nat.ltb_spec (S k) n) as [Hsk|Hsk].
        -- destruct (add_at_spec n r1 (S k) v2 Hr1 Hsk) as (r2 & Er2 & Hr2 & Eu2 & _).
           { rewrite Hn1 by lia. rewrite Hy2. lia. }
           rewrite Er2. exists r2. split; [done|]. apply Hdone; [done|]. exists 0. rewrite Etot. lia.
        -- exists r1. split; [done|]. apply Hdone; [done|]. exists v2. rewrite Etot. replace (S k) with n by lia. lia.
      * exists r1. split; [done|]. apply Hdone; [done|]. exists 0. rewrite Etot.
        assert (bs = 0) as -> by lia. rewrite N.pow_0_r in Hv2. assert (v2 = 0) as -> by lia. lia.
    + rewrite (proj2 (Nat.ltb_ge (i + ws + 1) n)) by lia. cbn [rbind]. rewrite andb_false_r.
      exists ret. split; [done|]. split; [done|]. rewrite Eret.
      replace (W ^ N.of_nat (i + ws)) with (W ^ N.of_nat n * W ^ N.of_nat (i + ws - n)) by (rewrite <- N.pow_add_r; f_equal; lia).
      rewrite (N.mul_comm (W ^ N.of_nat n)), <- N.mul_assoc, (N.mul_comm (W ^ N.of_nat n)), N.mul_assoc.
      rewrite N.mod_add by nz. done.
  - exists r. split; [done|]. split; [done|]. rewrite E. cbn [Nat.add]. rewrite firstn_all2 by lia. done.
Qed.

Lemma shr_digit bs x R : bs < 64 -> x < W ->
  x / 2 ^ bs < W /\ x / 2 ^ bs + (R * 2 ^ (64 - bs)) mod W < W /\
  ((x + W * R) / 2 ^ bs) mod W = x / 2 ^ bs + (R * 2 ^ (64 - bs)) mod W.
Proof.
  intros Hbs Hx. pose proof (W_split bs ltac:(lia)) as Hsplit.
  assert (exists q, (R * 2 ^ (64 - bs)) mod W = 2 ^ (64 - bs) * q /\ q < 2 ^ bs) as (q & Eq & Hq).
  { exists (R mod 2 ^ bs). rewrite Hsplit, (N.mul_comm R), (N.mul_comm (2 ^ bs)).
    rewrite N.mul_mod_distr_l by nz. split; [done|]. apply N.mod_lt. nz. }
  assert (Hv1 : x / 2 ^ bs < 2 ^ (64 - bs)).
  { apply N.div_lt_upper_bound; [nz|]. rewrite <- Hsplit. done. }
  assert (Hle : 2 ^ (64 - bs) * (q + 1) <= W).
  { rewrite Hsplit, N.mul_comm. apply N.mul_le_mono_r. lia. }
  assert (Hsum : x / 2 ^ bs + (R * 2 ^ (64 - bs)) mod W < W).
  { rewrite Eq. set (d := x / 2 ^ bs) in *. clearbody d. clear - Hv1 Hle. lia. }
  split; [set (d := x / 2 ^ bs) in *; set (e := _ mod W) in *; clearbody d e; clear - Hsum; lia|]. split; [done|].
  rewrite Hsplit at 1. replace (x + 2 ^ bs * 2 ^ (64 - bs) * R) with (x + (R * 2 ^ (64 - bs)) * 2 ^ bs) by (clear; lia).
  rewrite N.div_add by nz. rewrite <- N.add_mod_idemp_r by nz. by apply N.mod_small.
Qed.
Lemma ushr_spec n a shift : words n a ->
  exists r, ushr a shift = Ok r /\ words n r /\ uval r = uval a / 2 ^ shift.
Proof.
  intros Ha. pose proof Ha as [Hl Hf]. unfold ushr. set (ws := N.to_nat (shift / 64)). set (bs := shift mod 64).
  assert (Hbs : bs < 64) by (apply N.mod_lt; lia).
  assert (Hsh : 2 ^ shift = W ^ N.of_nat ws * 2 ^ bs).
  { unfold ws. rewrite N2Nat.id. unfold bs. rewrite <- W_pow, <- N.pow_mul_r, <- N.pow_add_r. f_equal. apply N.div_mod. lia. }
  clearbody ws bs. rewrite Hl. pose proof (uval_bound n a Ha) as Ba. rewrite capacity_W in Ba.
  destruct (decide (n <= ws)%nat) as [Hn|Hn].
  { replace (n - ws)%nat with 0%nat by lia. cbn [seq rfold]. exists (zero n). split; [done|]. split; [apply words_zero|].
    rewrite uval_zero. symmetry. apply N.div_small. rewrite Hsh.
    assert (W ^ N.of_nat n <= W ^ N.of_nat ws) by (apply N.pow_le_mono_r; [pose proof W_gt1|]; lia).
    pose proof (two_pow_pos bs). nia. }
  assert (Hn1 : (n - 1 + 1)%nat = n) by (clear - Hn; lia).
  destruct (rfold_seq_inv (fun i ret => words n ret /\ uval ret = (uval a / 2 ^ shift) mod W ^ N.of_nat (i - ws))
    (shr_step a ws bs) (n - ws) ws (zero n)) as (r & Er & Hr & E).
  - split; [apply words_zero|]. rewrite Nat.sub_diag. cbn [N.of_nat]. rewrite N.pow_0_r, N.mod_1_r. apply uval_zero.
  - intros i ret Hi [Hret Eret]. unfold shr_step. rewrite Hl.
    assert (HSm : (S i - ws)%nat = (i - ws + 1)%nat) by (clear - Hi; lia).
    assert (HNi : N.of_nat i = N.of_nat ws + N.of_nat (i - ws)) by (clear - Hi; lia).
    assert (Hm : (i - ws < n)%nat) by (clear - Hi; lia).
    assert (Hlast : (i <? n - 1)%nat = false -> i = (n - 1)%nat) by (clear - Hi; intros ?%Nat.ltb_ge; lia).
    set (m := (i - ws)%nat) in *. clearbody m.
    set (U := uval a) in *. set (x := nth i a 0). set (x' := nth (i + 1) a 0).
    assert (Hx : x < W) by (by apply (words_nth n)). assert (Hx' : x' < W) by (by apply (words_nth n)).
    set (R := U / W ^ N.of_nat (i + 1)).
    assert (EU : U / W ^ N.of_nat i = x + W * R).
    { unfold R. rewrite Nat2N.inj_add, N.pow_add_r, N.pow_1_r, <- N.div_div by nz.
      unfold x. rewrite (words_digit n) by done. fold U. rewrite N.add_comm. apply N.div_mod. nz. }
    assert (ER : exists q, R = x' + W * q).
    { exists (R / W). unfold x'. rewrite (words_digit n) by done. fold U. fold R. rewrite N.add_comm. apply N.div_mod. nz. }
    assert (ERl : (i = n - 1)%nat -> R = 0).
    { intros Ei. unfold R. rewrite Ei, Hn1. apply N.div_small. exact Ba. }
    (* the new digit *)
    assert (Edig : (U / 2 ^ shift) mod W ^ N.of_nat (S i - ws) =
                   (U / 2 ^ shift) mod W ^ N.of_nat m + W ^ N.of_nat m * (((x + W * R) / 2 ^ bs) mod W)).
    { rewrite HSm, Nat2N.inj_add, N.pow_add_r, N.pow_1_r, N.mod_mul_r by nz.
      f_equal. f_equal. f_equal. rewrite <- EU. rewrite Hsh, !N.div_div by nz.
      f_equal. rewrite HNi, N.pow_add_r, <- !N.mul_assoc. f_equal. apply N.mul_comm. }
    assert (Hy0 : nth m ret 0 = 0).
    { rewrite (words_digit n) by done. rewrite Eret, N.div_small by (apply N.mod_lt; pose proof (Wpow_pos (N.of_nat m)); lia).
      apply N.mod_0_l. nz. }
    rewrite N.shiftl_mul_pow2, N.shiftr_div_pow2.
    destruct (shr_digit bs x R Hbs Hx) as (Hv1W & Hsum & Edig2). rewrite Edig2 in Edig. clear Edig2.
    assert (Ex' : (R * 2 ^ (64 - bs)) mod W = (x' * 2 ^ (64 - bs)) mod W).
    { destruct ER as [q ->]. rewrite N.mul_add_distr_r. replace (W * q * 2 ^ (64 - bs)) with (q * 2 ^ (64 - bs) * W) by (clear; lia).
      apply N.mod_add. nz. }
    assert (ERl' : i = (n - 1)%nat -> (R * 2 ^ (64 - bs)) mod W = 0).
    { intros Ei. rewrite (ERl Ei), N.mul_0_l. apply N.mod_0_l. nz. }
    assert (Ebs0 : bs = 0 -> (R * 2 ^ (64 - bs)) mod W = 0).
    { intros ->. change (2 ^ (64 - 0)) with W. apply N.mod_mul. nz. }
    rewrite <- Ex'. clear Ex'. set (v1 := x / 2 ^ bs) in *. set (v2 := (R * 2 ^ (64 - bs)) mod W) in *.
    set (old := (U / 2 ^ shift) mod W ^ N.of_nat m) in *. set (new := (U / 2 ^ shift) mod W ^ N.of_nat (S i - ws)) in *.
    clearbody v1 v2 old new. clear EU ER ERl.
    destruct (add_at_spec n ret m v1 Hret Hm) as (r1 & Er1 & Hr1 & Eu1 & _); [by rewrite Hy0|]. rewrite Er1. cbn [rbind].
    assert (Hr1m : nth m r1 0 = v1).
    { unfold add_at in Er1. rewrite (words_lookup n ret m) in Er1 by done. rewrite Hy0 in Er1. destruct (0 + v1 <? W); [|done].
      injection Er1 as <-. rewrite nth_lookup, list_lookup_insert by (destruct Hret as [-> _]; done). done. }
    destruct (0 <? bs) eqn:Hb0; cbn [andb].
    + destruct (i <? n - 1)%nat eqn:Hi1.
      * destruct (add_at_spec n r1 m v2 Hr1 Hm) as (r2 & Er2 & Hr2 & Eu2 & _); [by rewrite Hr1m|].
        rewrite Er2. exists r2. split; [done|]. split; [done|]. rewrite Edig, Eu2, Eu1, Eret. clear. lia.
      * exists r1. split; [done|]. split; [done|]. rewrite Edig, Eu1, Eret, (ERl' (Hlast eq_refl)), N.add_0_r. done.
    + exists r1. split; [done|]. split; [done|]. rewrite Edig, Eu1, Eret, Ebs0, N.add_0_r; [done|].
      apply N.ltb_ge in Hb0. clear - Hb0. lia.
  - exists r. split; [done|]. split; [done|]. rewrite E. replace (ws + (n - ws) - ws)%nat with (n - ws)%nat by lia.
    apply N.mod_small. apply N.div_lt_upper_bound; [nz|]. rewrite Hsh.
    assert (W ^ N.of_nat n = W ^ N.of_nat ws * W ^ N.of_nat (n - ws)) as Es by (rewrite <- N.pow_add_r; f_equal; lia).
    rewrite Es in Ba. eapply N.lt_le_trans; [exact Ba|]. apply N.mul_le_mono_r.
    rewrite <- (N.mul_1_r (W ^ N.of_nat ws)) at 1. apply N.mul_le_mono_l. pose proof (two_pow_pos bs) as Hp. clear - Hp. lia.
Qed.

(** ** Bit length *)
Lemma size_shifted lo k x : lo < 2 ^ k -> 0 < x -> N.size (lo + 2 ^ k * x) = k + N.size x.
Proof.
  intros Hlo Hx. rewrite !N.size_log2 by (pose proof (two_pow_pos k); nia).
  rewrite N.add_succ_r. f_equal. apply N.log2_unique; [lia|].
  destruct (N.log2_spec x Hx) as [H1 H2]. rewrite <- N.add_succ_r, !N.pow_add_r. split.
  - assert (2 ^ k * 2 ^ N.log2 x <= 2 ^ k * x) by (by apply N.mul_le_mono_l). lia.
  - assert (2 ^ k * (x + 1) <= 2 ^ k * 2 ^ N.succ (N.log2 x)) by (apply N.mul_le_mono_l; lia). lia.
Qed.
Lemma size_upper x k : x < 2 ^ k -> N.size x <= k.
Proof.
  intros H. destruct (N.eq_dec x 0) as [->|Hx]; [cbn; lia|]. rewrite N.size_log2 by done.
  apply N.le_succ_l. apply N.log2_lt_pow2; lia.
Qed.
Lemma size_zero_iff x : N.size x = 0 <-> x = 0.
Proof. split; [|by intros ->]. intros H. destruct (N.eq_dec x 0) as [->|Hx]; [done|]. rewrite N.size_log2 in H by done. lia. Qed.
Lemma size_lower x : 0 < x -> 2 ^ (N.size x - 1) <= x.
Proof. intros H. rewrite N.size_log2 by lia. replace (N.succ (N.log2 x) - 1) with (N.log2 x) by lia. by apply N.log2_spec. Qed.
Lemma bits_below_spec n a i : words n a -> (i < n)%nat -> bits_below a i = N.size (number W (firstn (S i) a)).
Proof.
  intros Ha. pose proof Ha as [Hl Hf]. induction i as [|i IH]; intros Hi; cbn [bits_below].
  - rewrite number_firstn_S by lia. cbn [firstn number N.of_nat]. rewrite N.pow_0_r, N.add_0_l, N.mul_1_l.
    unfold leading_zeros. pose proof (size_upper (nth 0 a 0) 64 (words_nth n a 0 Ha)) as Hs. clear - Hs. lia.
  - rewrite number_firstn_S by lia. pose proof (words_nth n a (S i) Ha) as Hx. set (x := nth (S i) a 0) in *. clearbody x.
    assert (HB : number W (firstn (S i) a) < 2 ^ (64 * N.of_nat (S i))).
    { rewrite N.pow_mul_r. apply number_firstn_bound; [done|lia]. }
    destruct (N.ltb_spec 0 x) as [H0|H0].
    + change W with (2 ^ 64) at 2. rewrite <- N.pow_mul_r. rewrite size_shifted by done.
      pose proof (size_upper x 64 Hx). unfold leading_zeros. lia.
    + assert (x = 0) as -> by lia. rewrite N.mul_0_r, N.add_0_r. apply IH. lia.
Qed.
Lemma bits_spec n a : (0 < n)%nat -> words n a -> bits a = N.size (uval a).
Proof.
  intros Hn Ha. unfold bits. pose proof Ha as [Hl _]. rewrite Hl. rewrite (bits_below_spec n) by (auto; lia).
  rewrite firstn_all2 by lia. done.
Qed.

(** ** Division *)
Lemma bit_set q s n ret : words n ret -> uval ret = 2 ^ N.of_nat (S s) * q -> (s < 64 * n)%nat ->
  words n (<[(s / 64)%nat := N.lor (nth (s / 64) ret 0) (2 ^ N.of_nat (s mod 64))]> ret) /\
  uval (<[(s / 64)%nat := N.lor (nth (s / 64) ret 0) (2 ^ N.of_nat (s mod 64))]> ret) = uval ret + 2 ^ N.of_nat s.
Proof.
  intros Hret Eq Hs. set (k := (s / 64)%nat). set (r := (s mod 64)%nat).
  assert (Hk : (k < n)%nat) by (apply Nat.div_lt_upper_bound; lia).
  assert (Hr : (r < 64)%nat) by (apply Nat.mod_upper_bound; lia).
  assert (Hsk : s = (64 * k + r)%nat) by (apply Nat.div_mod; lia). clearbody k r.
  set (y := nth k ret 0). assert (Hy : y < W) by (by apply (words_nth n)).
  assert (Hbit : N.testbit y (N.of_nat r) = false).
  { unfold y. rewrite (words_digit n) by done. change W with (2 ^ 64) at 2. rewrite N.mod_pow2_bits_low by lia.
    rewrite <- W_pow, <- N.pow_mul_r, N.div_pow2_bits. replace (N.of_nat r + 64 * N.of_nat k) with (N.of_nat s) by lia.
    rewrite Eq, N.mul_comm. apply N.mul_pow2_bits_low. lia. }
  assert (Hland : N.land y (2 ^ N.of_nat r) = 0).
  { apply N.bits_inj. intros i. rewrite N.land_spec, N.bits_0, N.pow2_bits_eqb.
    destruct (N.eqb_spec (N.of_nat r) i) as [<-|]; [by rewrite Hbit|apply andb_false_r]. }
  assert (Hlor : N.lor y (2 ^ N.of_nat r) = y + 2 ^ N.of_nat r).
  { rewrite N.add_nocarry_lxor by done. symmetry. by apply N.lxor_lor. }
  assert (Hlt : N.lor y (2 ^ N.of_nat r) < W).
  { destruct (N.eq_dec (N.lor y (2 ^ N.of_nat r)) 0) as [->|Hnz]; [apply W_pos|].
    rewrite <- W_pow. apply N.log2_lt_pow2; [lia|]. rewrite N.log2_lor. rewrite N.log2_pow2 by lia.
    apply N.max_lub_lt; [|lia]. destruct (N.eq_dec y 0) as [->|]; [done|]. apply N.log2_lt_pow2; [lia|done]. }
  split; [by apply words_insert|].
  pose proof (number_insert W ret k y (N.lor y (2 ^ N.of_nat r)) (words_lookup n ret k Hret Hk)) as E.
  rewrite Hlor in *. unfold uval. rewrite W_pow.
  assert (W ^ N.of_nat k * 2 ^ N.of_nat r = 2 ^ N.of_nat s) as Ep.
  { rewrite <- W_pow, <- N.pow_mul_r, <- N.pow_add_r. f_equal. lia. }
  rewrite N.mul_add_distr_l, Ep in E. lia.
Qed.
Lemma div_loop_spec n shift sub sc ret a b q : (0 < n)%nat -> words n sub -> words n sc -> words n ret -> (shift < 64 * n)%nat ->
  uval sc = b * 2 ^ N.of_nat shift -> uval ret = 2 ^ N.of_nat (S shift) * q -> a = uval ret * b + uval sub ->
  uval sub < b * 2 ^ N.of_nat (S shift) ->
  exists q' r', div_loop shift sub sc ret = Ok (q', r') /\ words n q' /\ words n r' /\ a = uval q' * b + uval r' /\ uval r' < b.
Proof.
  intros Hn. revert sub sc ret q. induction shift as [|s IH]; intros sub sc ret q Hsub Hsc Hret Hs Esc Eret Ea Hlt.
  all: cbn [div_loop]; rewrite (ugeb_spec n) by done.
  all: destruct (ushr_spec n sc 1 Hsc) as (sc' & Esc' & Hsc' & Euc); rewrite N.pow_1_r in Euc.
  all: pose proof (unchecked_sub_spec n sub sc Hn Hsub Hsc) as Hus.
  - destruct (bit_set q 0 n ret Hret Eret Hs) as [Hw Hu].
    rewrite Nat2N.inj_succ, N.pow_succ_r' in Hlt. cbn [N.of_nat] in *. rewrite N.pow_0_r in *.
    destruct (N.leb_spec (uval sc) (uval sub)) as [Hc|Hc]; rewrite Esc'; cbn [rbind].
    + destruct (Hus Hc) as [H1 H2]. eexists _, _. split; [done|]. split; [exact Hw|]. split; [exact H1|]. rewrite Hu, H2.
      split; [rewrite Ea|]; lia.
    + eexists _, _. split; [done|]. split; [exact Hret|]. split; [exact Hsub|]. split; [done|]. lia.
  - destruct (bit_set q (S s) n ret Hret Eret Hs) as [Hw Hu].
    assert (Ep : 2 ^ N.of_nat (S s) = 2 * 2 ^ N.of_nat s) by (rewrite Nat2N.inj_succ, N.pow_succ_r'; done).
    assert (Ep2 : 2 ^ N.of_nat (S (S s)) = 2 * 2 ^ N.of_nat (S s)) by (rewrite (Nat2N.inj_succ (S s)), N.pow_succ_r'; done).
    assert (Esc2 : uval sc' = b * 2 ^ N.of_nat s).
    { rewrite Euc, Esc, Ep. replace (b * (2 * 2 ^ N.of_nat s)) with (b * 2 ^ N.of_nat s * 2) by lia. apply N.div_mul. lia. }
    destruct (N.leb_spec (uval sc) (uval sub)) as [Hc|Hc]; rewrite Esc'; cbn [rbind].
    + destruct (Hus Hc) as [H1 H2]. apply (IH _ _ _ (2 * q + 1)); auto; [lia|rewrite Hu, Eret; lia| |].
      * rewrite Hu, H2, Ea. lia.
      * rewrite H2. lia.
    + apply (IH _ _ _ (2 * q)); auto; [lia|rewrite Eret; lia|lia].
Qed.
Lemma div_rem_spec n a b : (0 < n)%nat -> words n a -> words n b -> uval b <> 0 ->
  exists q r, div_rem a b = Ok (q, r) /\ words n q /\ words n r /\ uval q = uval a / uval b /\ uval r = uval a mod uval b.
Proof.
  intros Hn Ha Hb Hnz. unfold div_rem. rewrite !(bits_spec n) by done. assert (length a = n) as -> by apply Ha.
  destruct (N.eqb_spec (N.size (uval b)) 0) as [E|E]; [destruct Hnz; by apply (proj1 (size_zero_iff _))|].
  pose proof (size_lower (uval b) ltac:(lia)) as Hlow. pose proof (N.size_gt (uval a)) as Hgt.
  destruct (N.ltb_spec (N.size (uval a)) (N.size (uval b))) as [Hlt|Hge].
  - assert (uval a < uval b).
    { eapply N.lt_le_trans; [exact Hgt|]. etransitivity; [|exact Hlow]. apply N.pow_le_mono_r; lia. }
    exists (zero n), a. split; [done|]. split; [apply words_zero|]. split; [done|].
    rewrite uval_zero, N.div_small, N.mod_small by done. done.
  - set (s := N.size (uval a) - N.size (uval b)). destruct (ushl_spec n b s Hb) as (sc & -> & Hsc & Esc). cbn [rbind].
    assert (Hsize : N.size (uval a) <= 64 * N.of_nat n) by (apply size_upper, (uval_bound n a Ha)).
    assert (Hnolos : uval b * 2 ^ s < capacity n).
    { unfold capacity. eapply N.lt_le_trans; [|apply N.pow_le_mono_r; [lia|exact Hsize]].
      replace (N.size (uval a)) with (N.size (uval b) + s) by (unfold s; lia). rewrite N.pow_add_r.
      apply N.mul_lt_mono_pos_r; [apply two_pow_pos|apply N.size_gt]. }
    rewrite N.mod_small in Esc by done.
    destruct (div_loop_spec n (N.to_nat s) a sc (zero n) (uval a) (uval b) 0) as (q & r & -> & Hq & Hr & E1 & E2); auto using words_zero.
    + unfold s. lia.
    + by rewrite N2Nat.id.
    + rewrite uval_zero. lia.
    + rewrite uval_zero. lia.
    + rewrite Nat2N.inj_succ, N2Nat.id. eapply N.lt_le_trans; [exact Hgt|].
      replace (N.size (uval a)) with (N.size (uval b) - 1 + N.succ s) by (unfold s; lia). rewrite N.pow_add_r. by apply N.mul_le_mono_r.
    + exists q, r. split; [done|]. split; [done|]. split; [done|].
      rewrite N.mul_comm in E1. split; [by apply (N.div_unique _ _ _ (uval r))|by apply (N.mod_unique _ _ (uval q))].
Qed.
Lemma uchecked_div_spec n a b : (0 < n)%nat -> words n a -> words n b ->
  (uval b <> 0 -> exists q, uchecked_div a b = Ok q /\ words n q /\ uval q = uval a / uval b) /\
  (uval b = 0 -> uchecked_div a b = Err tt).
Proof.
  intros Hn Ha Hb. unfold uchecked_div. assert (length a = n) as -> by apply Ha. rewrite (ueqb_zero n) by done. split; intros E.
  - rewrite (proj2 (N.eqb_neq _ _) E). destruct (div_rem_spec n a b Hn Ha Hb E) as (q & r & -> & Hq & _ & Eq & _). cbn. eauto.
  - by rewrite (proj2 (N.eqb_eq _ _) E).
Qed.
Lemma uchecked_rem_spec n a b : (0 < n)%nat -> words n a -> words n b ->
  (uval b <> 0 -> exists q, uchecked_rem a b = Ok q /\ words n q /\ uval q = uval a mod uval b) /\
  (uval b = 0 -> uchecked_rem a b = Err tt).
Proof.
  intros Hn Ha Hb. unfold uchecked_rem. assert (length a = n) as -> by apply Ha. rewrite (ueqb_zero n) by done. split; intros E.
  - rewrite (proj2 (N.eqb_neq _ _) E). destruct (div_rem_spec n a b Hn Ha Hb E) as (q & r & -> & _ & Hq & _ & Eq). cbn. eauto.
  - by rewrite (proj2 (N.eqb_eq _ _) E).
Qed.

(** ** Bytes *)
Lemma lor_shifted a b k : a < 2 ^ k -> N.lor a (N.shiftl b k) = a + 2 ^ k * b.
Proof.
  intros Ha. assert (N.land a (N.shiftl b k) = 0) as Hl.
  { apply N.bits_inj. intros i. rewrite N.land_spec, N.bits_0. destruct (N.lt_ge_cases i k) as [Hi|Hi].
    - rewrite N.shiftl_spec_low by done. apply andb_false_r.
    - destruct (N.eq_dec a 0) as [->|Hz]; [by rewrite N.bits_0|]. rewrite (N.bits_above_log2 a); [done|].
      eapply N.lt_le_trans; [|exact Hi]. apply N.log2_lt_pow2; lia. }
  rewrite <- N.lxor_lor, <- N.add_nocarry_lxor by done. rewrite N.shiftl_mul_pow2. lia.
Qed.
Lemma pow256 k : 256 ^ k = 2 ^ (8 * k). Proof. by rewrite N.pow_mul_r. Qed.
Definition bytes (l : list N) : Prop := Forall (fun x => x < 256) l.
Lemma word_of_bytes_spec l : length l = 8%nat -> bytes l -> word_of_bytes l = byte_value l.
Proof.
  intros Hl Hb. unfold word_of_bytes.
  assert (G : forall m k, (k + m <= 8)%nat ->
    foldl (fun acc i => N.lor acc (N.shiftl (nth i l 0) (8 * N.of_nat i))) (byte_value (firstn k l)) (seq k m) = byte_value (firstn (k + m) l)).
  { induction m as [|m IH]; intros k Hk; cbn [seq foldl]; [by rewrite Nat.add_0_r|].
    replace (k + S m)%nat with (S k + m)%nat by lia. rewrite <- IH by lia. f_equal.
    destruct (nth_lookup_or_length l k 0) as [E|E]; [|lia]. rewrite lor_shifted.
    - rewrite (take_S_r l k _ E). unfold byte_value. rewrite number_app, firstn_length_le by lia. cbn [number]. rewrite pow256. lia.
    - rewrite <- pow256. unfold byte_value. rewrite <- (firstn_length_le l (n:=k)) at 2 by lia. apply number_bound; [lia|]. by apply Forall_take. }
  specialize (G 8%nat 0%nat ltac:(lia)). rewrite take_0 in G. unfold byte_value in *. cbn [number] in G. rewrite G.
  rewrite firstn_all2 by lia. done.
Qed.
Lemma number_digits b w m : 1 < b -> number b (map (fun i => (w / b ^ N.of_nat i) mod b) (seq 0 m)) = w mod b ^ N.of_nat m.
Proof.
  intros Hb. induction m as [|m IH].
  - cbn [seq map number N.of_nat]. by rewrite N.pow_0_r, N.mod_1_r.
  - rewrite seq_S, map_app, number_app, IH, map_length, seq_length. cbn [map number Nat.add].
    rewrite N.mul_0_r, N.add_0_r, Nat2N.inj_succ, N.pow_succ_r', (N.mul_comm b), N.mod_mul_r by (try apply N.pow_nonzero; lia). done.
Qed.
Lemma bytes_of_word_spec w : w < W ->
  length (bytes_of_word w) = 8%nat /\ bytes (bytes_of_word w) /\ byte_value (bytes_of_word w) = w.
Proof.
  intros Hw. unfold bytes_of_word.
  assert (E : map (fun i => N.land (N.shiftr w (8 * N.of_nat i)) 255) (seq 0 8) = map (fun i => (w / 256 ^ N.of_nat i) mod 256) (seq 0 8)).
  { apply map_ext. intros i. rewrite N.shiftr_div_pow2, <- pow256. exact (N.land_ones _ 8). }
  split; [by rewrite map_length, seq_length|]. rewrite E. split.
  - apply Forall_forall. intros x [i [-> _]]%elem_of_list_fmap. apply N.mod_lt. lia.
  - unfold byte_value. rewrite number_digits by lia. apply N.mod_small. exact Hw.
Qed.
Lemma to_bytes_spec n a : words n a ->
  length (to_bytes a) = (n * 8)%nat /\ bytes (to_bytes a) /\ byte_value (to_bytes a) = uval a.
Proof.
  revert a. induction n as [|n IH]; intros [|w a] Ha; try by destruct Ha.
  - split; [done|]. split; [constructor|done].
  - apply words_cons in Ha as [Hw Ha]. destruct (IH a Ha) as (H1 & H2 & H3).
    destruct (bytes_of_word_spec w Hw) as (G1 & G2 & G3). cbn [to_bytes].
    split; [rewrite app_length; lia|]. split; [by apply Forall_app|].
    unfold byte_value, uval in *. rewrite number_app, G1, G3, H3. cbn [number]. done.
Qed.
Lemma from_bytes_spec n l : length l = (n * 8)%nat -> bytes l -> words n (from_bytes n l) /\ uval (from_bytes n l) = byte_value l.
Proof.
  revert l. induction n as [|n IH]; intros l Hl Hb.
  - destruct l; [|done]. split; [split; [done|constructor]|done].
  - assert (H8 : length (firstn 8 l) = 8%nat) by (apply firstn_length_le; lia).
    assert (Hb8 : bytes (firstn 8 l)) by (by apply Forall_take).
    destruct (IH (skipn 8 l)) as [H1 H2]; [rewrite skipn_length; lia|by apply Forall_drop|].
    change (from_bytes (S n) l) with (word_of_bytes (firstn 8 l) :: from_bytes n (skipn 8 l)).
    rewrite word_of_bytes_spec by done.
    assert (Hlt : byte_value (firstn 8 l) < W).
    { pose proof (number_bound 256 ltac:(lia) (firstn 8 l) Hb8) as Hlt. rewrite H8 in Hlt. exact Hlt. }
    split; [by apply words_cons|]. rewrite <- (firstn_skipn 8 l) at 3. unfold byte_value, uval in *.
    rewrite number_app, H8. cbn [number]. rewrite H2. done.
Qed.

(** ** Conversions *)
Lemma widen_spec n m a : words n a -> words (n + m) (widen m a) /\ uval (widen m a) = uval a.
Proof.
  intros [H1 H2]. unfold widen. split.
  - split; [rewrite app_length, repeat_length; lia|]. apply Forall_app. split; [done|apply words_zero].
  - unfold uval. rewrite number_app, number_zeros. lia.
Qed.
Lemma from_u128_spec n v : (2 <= n)%nat -> v <= U128_MAX -> words n (from_u128 n v) /\ uval (from_u128 n v) = v.
Proof.
  intros Hn Hv. unfold from_u128.
  assert (H0 : v mod W < W) by (apply N.mod_lt; nz). assert (H1 : v / W mod W < W) by (apply N.mod_lt; nz).
  split; [apply words_insert; [apply words_insert; [apply words_zero|done]|done]|].
  destruct n as [|[|n]]; [lia|lia|]. unfold zero. cbn [repeat insert list_insert]. unfold uval. rewrite W_pow. cbn [number].
  rewrite number_zeros. rewrite (N.mod_small (v / W)).
  - pose proof (N.div_mod v W W_nz) as D. lia.
  - apply N.div_lt_upper_bound; [nz|]. unfold U128_MAX, W in *. lia.
Qed.
Lemma u128_of_u256_spec a : words 4 a ->
  (uval a <= U128_MAX -> u128_of_u256 a = Ok (uval a)) /\ (U128_MAX < uval a -> u128_of_u256 a = Err tt).
Proof.
  intros Ha. unfold u128_of_u256. destruct (from_u128_spec 4 U128_MAX ltac:(lia) ltac:(lia)) as [H1 H2].
  rewrite (ucompare_spec 4) by done. rewrite H2. destruct (N.compare_spec (uval a) U128_MAX) as [E|E|E]; split; intros H; try lia; f_equal.
  all: destruct Ha as [Hl Hf]; destruct a as [|x0 [|x1 [|x2 [|x3 [|]]]]]; try discriminate Hl; cbn [nth]; unfold uval in *; rewrite W_pow in *; cbn [number] in *.
  all: rewrite N.mul_0_r, N.add_0_r in *.
  all: assert (W * W = U128_MAX + 1) as HWW by reflexivity.
  all: assert (x2 = 0 /\ x3 = 0) as [-> ->]; [|lia].
  all: assert (W * (W * (x2 + W * x3)) <= U128_MAX) as Hle by lia.
  all: rewrite N.mul_assoc, HWW in Hle; destruct (N.eq_dec (x2 + W * x3) 0) as [E0|E0]; [unfold W in E0; lia|nia].
Qed.
Lemma u256_of_u512_spec a : words 8 a ->
  (uval a < capacity 4 -> exists r, u256_of_u512 a = Ok r /\ words 4 r /\ uval r = uval a) /\
  (capacity 4 <= uval a -> u256_of_u512 a = Err tt).
Proof.
  intros Ha. unfold u256_of_u512.
  assert (Hm : words 4 (repeat (W - 1) 4)) by (split; [done|]; repeat constructor; unfold W; lia).
  destruct (widen_spec 4 4 _ Hm) as [H1 H2]. cbn [Nat.add] in H1. rewrite (ucompare_spec 8) by done. rewrite H2.
  assert (Em : uval (repeat (W - 1) 4) + 1 = capacity 4) by reflexivity.
  pose proof Ha as [Hl Hf].
  assert (G : uval a < capacity 4 -> words 4 (firstn 4 a) /\ uval (firstn 4 a) = uval a).
  { intros H. split; [split; [apply firstn_length_le; lia|by apply Forall_take]|]. unfold uval at 1.
    rewrite (number_firstn W W_gt1) by (auto; lia). apply N.mod_small. by rewrite capacity_W in H. }
  destruct (N.compare_spec (uval a) (uval (repeat (W - 1) 4))) as [E|E|E]; split; intros H; try lia.
  - exists (firstn 4 a). split; [done|]. by apply G.
  - exists (firstn 4 a). split; [done|]. by apply G.
  - done.
Qed.
