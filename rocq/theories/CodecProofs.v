(** The primitive encodings are lossless and unambiguous. *)
From Coq Require Import Strings.Byte.
From Verif Require Import Base CodecModel CodecSpec.
Local Open Scope N_scope.

Lemma dbind_some {A B} (d : decoder A) (k : A -> decoder B) bs b r :
  dbind d k bs = Some (b, r) -> exists a r', d bs = Some (a, r') /\ k a r' = Some (b, r).
Proof. unfold dbind. destruct (d bs) as [[a r']|]; [|done]. intros H. by exists a, r'. Qed.
Lemma dguard_some (b : bool) bs u r : dguard b bs = Some (u, r) -> b = true /\ r = bs.
Proof. destruct b; unfold dguard, dret, dfail; intros H; by simplify_eq. Qed.
Lemma dret_some {A} (a a' : A) bs r : dret a bs = Some (a', r) -> a' = a /\ r = bs.
Proof. unfold dret. intros H. by simplify_eq. Qed.

Lemma to_N_lt b : Byte.to_N b < 256.
Proof. pose proof (Byte.to_N_bounded b). lia. Qed.
Lemma byte_of_to_N b : byte_of (Byte.to_N b) = b.
Proof. unfold byte_of. by rewrite Byte.of_to_N. Qed.
Lemma to_N_byte_of v : v < 256 -> Byte.to_N (byte_of v) = v.
Proof.
  intros H. unfold byte_of. destruct (Byte.of_N v) as [b|] eqn:E.
  - by apply Byte.to_of_N in E.
  - apply Byte.of_N_None_iff in E. lia.
Qed.

Lemma le_length n v : length (le n v) = n.
Proof. revert v. induction n as [|n IH]; intros v; cbn; [done|]. by rewrite IH. Qed.
Lemma of_le_le n : forall v, v < 256 ^ N.of_nat n -> of_le (le n v) = v.
Proof.
  induction n as [|n IH]; intros v H.
  - cbn in *. lia.
  - replace (N.of_nat (S n)) with (N.succ (N.of_nat n)) in H by lia. rewrite N.pow_succ_r' in H.
    cbn [le of_le]. rewrite to_N_byte_of by (apply N.mod_lt; lia).
    rewrite IH by (apply N.div_lt_upper_bound; lia). pose proof (N.div_mod v 256). lia.
Qed.
Lemma of_le_lt bs : of_le bs < 256 ^ N.of_nat (length bs).
Proof.
  induction bs as [|b bs IH]; [cbn; lia|]. cbn [of_le length].
  replace (N.of_nat (S (length bs))) with (N.succ (N.of_nat (length bs))) by lia. rewrite N.pow_succ_r'.
  pose proof (to_N_lt b). nia.
Qed.
Lemma le_of_le bs : le (length bs) (of_le bs) = bs.
Proof.
  induction bs as [|b bs IH]; [done|]. cbn [of_le length le]. pose proof (to_N_lt b).
  replace ((Byte.to_N b + 256 * of_le bs) mod 256) with (Byte.to_N b).
  - rewrite byte_of_to_N. f_equal. replace ((Byte.to_N b + 256 * of_le bs) / 256) with (of_le bs); [done|].
    replace (Byte.to_N b + 256 * of_le bs) with (of_le bs * 256 + Byte.to_N b) by lia.
    rewrite N.div_add_l by lia. rewrite N.div_small by lia. lia.
  - replace (Byte.to_N b + 256 * of_le bs) with (Byte.to_N b + of_le bs * 256) by lia.
    rewrite N.mod_add by lia. by rewrite N.mod_small.
Qed.

Lemma byte_codec : codec (fun _ => True) enc_byte dec_byte.
Proof.
  split.
  - intros a r _. done.
  - intros [|b i] a r H; cbn in H; simplify_eq. done.
Qed.

Lemma array_codec n : codec (fun a => length a = n) enc_array (dec_array n).
Proof.
  split.
  - intros a r H. unfold dec_array, enc_array. rewrite app_length.
    destruct (Nat.leb_spec n (length a + length r)); [|lia]. subst n.
    by rewrite firstn_app, Nat.sub_diag, firstn_O, app_nil_r, firstn_all, skipn_app, Nat.sub_diag, skipn_all.
  - intros i a r H. unfold dec_array in H. destruct (Nat.leb_spec n (length i)) as [L|]; [|done]. simplify_eq.
    split; [apply firstn_length_le; lia|]. unfold enc_array. by rewrite firstn_skipn.
Qed.

Lemma uint_codec n : codec (fun v => v < 256 ^ N.of_nat n) (enc_uint n) (dec_uint n).
Proof.
  destruct (array_codec n) as [R X]. split.
  - intros v r H. unfold dec_uint, dbind, enc_uint. change (le n v) with (enc_array (le n v)).
    rewrite R by apply le_length. unfold dret. by rewrite of_le_le.
  - intros i v r H. apply dbind_some in H as (a & r' & H1 & H2). apply dret_some in H2 as [-> ->].
    apply X in H1 as [L ->]. split.
    + rewrite <- L. apply of_le_lt.
    + unfold enc_uint, enc_array. f_equal. by rewrite <- L, le_of_le.
Qed.

Lemma pow256 n : 256 ^ N.of_nat n = 2 ^ (8 * N.of_nat n).
Proof. rewrite N.pow_mul_r. done. Qed.
Lemma needed_upper v : v < 256 ^ N.of_nat (bytes_needed v).
Proof.
  rewrite pow256. unfold bytes_needed. rewrite N2Nat.id. eapply N.lt_le_trans; [apply N.size_gt|].
  apply N.pow_le_mono_r; [lia|]. pose proof (N.div_mod (N.size v + 7) 8). pose proof (N.mod_lt (N.size v + 7) 8). lia.
Qed.
Lemma needed_lower v : v <> 0 -> 256 ^ N.of_nat (bytes_needed v - 1) <= v.
Proof.
  intros H. rewrite pow256. unfold bytes_needed. rewrite N.size_log2 by done.
  transitivity (2 ^ N.log2 v); [|apply N.log2_spec; lia].
  apply N.pow_le_mono_r; [lia|]. pose proof (N.div_mod (N.succ (N.log2 v) + 7) 8).
  pose proof (N.mod_lt (N.succ (N.log2 v) + 7) 8). lia.
Qed.
Lemma needed_unique v n : (0 < n)%nat -> v < 256 ^ N.of_nat n -> 256 ^ N.of_nat (n - 1) <= v -> bytes_needed v = n.
Proof.
  intros Hn U Lo. pose proof (needed_upper v) as U'.
  assert (v <> 0) as Hv by (pose proof (N.pow_nonzero 256 (N.of_nat (n - 1))); lia).
  pose proof (needed_lower v Hv) as L'. rewrite !pow256 in *.
  pose proof (N.le_lt_trans _ _ _ Lo U') as A. pose proof (N.le_lt_trans _ _ _ L' U) as B.
  apply N.pow_lt_mono_r_iff in A; [|lia]. apply N.pow_lt_mono_r_iff in B; [|lia]. lia.
Qed.

Lemma mod4 p q : q < 4 -> (4 * p + q) mod 4 = q /\ (4 * p + q) / 4 = p.
Proof.
  intros H. replace (4 * p + q) with (q + p * 4) by lia. rewrite N.mod_add, N.div_add by lia.
  rewrite N.mod_small, N.div_small by lia. lia.
Qed.

Lemma mod256_4 x : x mod 256 mod 4 = x mod 4.
Proof.
  pose proof (N.div_mod x 256 ltac:(lia)) as H. rewrite H at 2.
  replace (256 * (x / 256) + x mod 256) with (x mod 256 + (64 * (x / 256)) * 4) by lia. by rewrite N.mod_add by lia.
Qed.

Lemma compact_codec w : (4 <= w <= 67)%nat -> codec (fun v => v < 256 ^ N.of_nat w) enc_compact (dec_compact w).
Proof.
  intros Hw. split.
  - intros v r H. unfold enc_compact.
    destruct (N.ltb_spec v (2 ^ 6)) as [A|A]; [|destruct (N.ltb_spec v (2 ^ 14)) as [B|B]; [|destruct (N.ltb_spec v (2 ^ 30)) as [C|C]]].
    + change (2 ^ 6) with 64 in A. cbn [le app]. unfold dec_compact, dbind at 1, dec_byte.
      rewrite (N.mod_small (4 * v) 256), to_N_byte_of by lia. destruct (mod4 v 0) as [M D]; [lia|].
      rewrite N.add_0_r in M, D. rewrite M, D. done.
    + change (2 ^ 6) with 64 in A. change (2 ^ 14) with 16384 in B.
      unfold dec_compact, dbind at 1. cbn [le app dec_byte].
      rewrite to_N_byte_of by (apply N.mod_lt; lia).
      replace ((4 * v + 1) mod 256 mod 4) with 1.
      2: { rewrite mod256_4. symmetry. by apply (mod4 v 1). }
      unfold dbind at 1.
      replace (dec_array 1 (byte_of ((4 * v + 1) / 256 mod 256) :: r)) with (Some ([byte_of ((4 * v + 1) / 256 mod 256)], r)) by done.
      cbv zeta iota beta. change [byte_of ((4 * v + 1) mod 256); byte_of ((4 * v + 1) / 256 mod 256)] with (le 2 (4 * v + 1)).
      rewrite of_le_le by (change (256 ^ N.of_nat 2) with 65536; lia). destruct (mod4 v 1) as [M D]; [lia|]. rewrite D.
      unfold dguard. rewrite (proj2 (N.leb_le _ _)) by (change (2 ^ 6) with 64; lia). done.
    + change (2 ^ 14) with 16384 in B. change (2 ^ 30) with 1073741824 in C.
      unfold dec_compact, dbind at 1. cbn [le app dec_byte].
      rewrite to_N_byte_of by (apply N.mod_lt; lia).
      replace ((4 * v + 2) mod 256 mod 4) with 2.
      2: { rewrite mod256_4. symmetry. by apply (mod4 v 2). }
      unfold dbind at 1. set (x := (4 * v + 2) / 256).
      replace (dec_array 3 (byte_of (x mod 256) :: byte_of (x / 256 mod 256) :: byte_of (x / 256 / 256 mod 256) :: r))
        with (Some (le 3 x, r)) by done.
      cbv zeta iota beta. change (byte_of ((4 * v + 2) mod 256) :: le 3 x) with (le 4 (4 * v + 2)).
      rewrite of_le_le by (change (256 ^ N.of_nat 4) with 4294967296; lia). destruct (mod4 v 2) as [M D]; [lia|]. rewrite D.
      unfold dguard. rewrite (proj2 (N.leb_le _ _)) by (change (2 ^ 14) with 16384; lia). done.
    + set (n := bytes_needed v). assert (v <> 0) as Hv by (change (2 ^ 30) with 1073741824 in C; lia).
      pose proof (needed_upper v) as U. pose proof (needed_lower v Hv) as Lo. fold n in U, Lo.
      assert (4 <= n)%nat as N4.
      { assert (2 ^ 30 < 256 ^ N.of_nat n) as P by lia. rewrite pow256 in P. apply N.pow_lt_mono_r_iff in P; lia. }
      assert (n <= w)%nat as Nw.
      { assert (256 ^ N.of_nat (n - 1) < 256 ^ N.of_nat w) as P by lia. apply N.pow_lt_mono_r_iff in P; lia. }
      unfold dec_compact, dbind at 1. cbn [app dec_byte].
      rewrite to_N_byte_of by lia. destruct (mod4 (N.of_nat n - 4) 3) as [M D]; [lia|]. rewrite M, D.
      replace (N.to_nat (N.of_nat n - 4 + 4)) with n by lia.
      unfold dbind, dguard. rewrite (proj2 (Nat.leb_le _ _)) by lia. unfold dret at 1.
      change (le n v ++ r) with (enc_array (le n v) ++ r).
      rewrite (proj1 (array_codec n)) by apply le_length. rewrite of_le_le by done.
      destruct (Nat.eqb_spec n 4) as [E|E]; rewrite (proj2 (N.leb_le _ _)) by lia; done.
  - intros i v r H. unfold dec_compact in H. apply dbind_some in H as (p & r1 & Hp & H).
    apply byte_codec in Hp as [_ ->]. pose proof (to_N_lt p) as Lp. pose proof (N.div_mod (Byte.to_N p) 4 ltac:(lia)) as DM.
    assert (256 ^ 4 <= 256 ^ N.of_nat w) as W4 by (apply N.pow_le_mono_r; lia). change (256 ^ 4) with 4294967296 in W4.
    pose proof (N.mod_lt (Byte.to_N p) 4 ltac:(lia)) as Ml. set (m := Byte.to_N p mod 4) in *.
    assert (m = 0 \/ m = 1 \/ m = 2 \/ m = 3) as [E|[E|[E|E]]] by lia; rewrite E in H.
    + apply dret_some in H as [-> ->]. split; [lia|]. unfold enc_compact, enc_byte.
      rewrite (proj2 (N.ltb_lt _ _)) by (change (2 ^ 6) with 64; lia). cbn [le app]. f_equal.
      replace (4 * (Byte.to_N p / 4)) with (Byte.to_N p) by lia. rewrite N.mod_small by lia. by rewrite byte_of_to_N.
    + apply dbind_some in H as (a & r2 & Ha & H). apply array_codec in Ha as [La ->].
      apply dbind_some in H as ([] & r3 & Hg & H). apply dguard_some in Hg as [Hg ->]. apply dret_some in H as [-> ->].
      apply N.leb_le in Hg. change (2 ^ 6) with 64 in Hg. pose proof (of_le_lt (p :: a)) as U.
      assert (of_le (p :: a) = 4 * (of_le (p :: a) / 4) + 1) as Hv.
      { pose proof (N.div_mod (of_le (p :: a)) 4 ltac:(lia)) as D2. replace (of_le (p :: a) mod 4) with 1 in D2; [lia|].
        cbn [of_le]. replace (Byte.to_N p + 256 * of_le a) with (Byte.to_N p + (64 * of_le a) * 4) by lia.
        rewrite N.mod_add by lia. done. }
      cbn [length] in U. rewrite La in U. change (256 ^ N.of_nat 2) with 65536 in U.
      set (v := of_le (p :: a) / 4) in *. split; [lia|]. unfold enc_compact.
      rewrite (proj2 (N.ltb_ge _ _)) by (change (2 ^ 6) with 64; lia). rewrite (proj2 (N.ltb_lt _ _)) by (change (2 ^ 14) with 16384; lia).
      rewrite <- Hv. change (enc_byte p ++ enc_array a ++ r2) with ((p :: a) ++ r2). f_equal.
      replace 2%nat with (length (p :: a)) by (cbn; lia). by rewrite le_of_le.
    + apply dbind_some in H as (a & r2 & Ha & H). apply array_codec in Ha as [La ->].
      apply dbind_some in H as ([] & r3 & Hg & H). apply dguard_some in Hg as [Hg ->]. apply dret_some in H as [-> ->].
      apply N.leb_le in Hg. change (2 ^ 14) with 16384 in Hg. pose proof (of_le_lt (p :: a)) as U.
      assert (of_le (p :: a) = 4 * (of_le (p :: a) / 4) + 2) as Hv.
      { pose proof (N.div_mod (of_le (p :: a)) 4 ltac:(lia)) as D2. replace (of_le (p :: a) mod 4) with 2 in D2; [lia|].
        cbn [of_le]. replace (Byte.to_N p + 256 * of_le a) with (Byte.to_N p + (64 * of_le a) * 4) by lia.
        rewrite N.mod_add by lia. done. }
      cbn [length] in U. rewrite La in U. change (256 ^ N.of_nat 4) with 4294967296 in U.
      set (v := of_le (p :: a) / 4) in *. split; [lia|]. unfold enc_compact.
      rewrite (proj2 (N.ltb_ge _ _)) by (change (2 ^ 6) with 64; lia). rewrite (proj2 (N.ltb_ge _ _)) by (change (2 ^ 14) with 16384; lia).
      rewrite (proj2 (N.ltb_lt _ _)) by (change (2 ^ 30) with 1073741824; lia).
      rewrite <- Hv. change (enc_byte p ++ enc_array a ++ r2) with ((p :: a) ++ r2). f_equal.
      replace 4%nat with (length (p :: a)) by (cbn; lia). by rewrite le_of_le.
    + set (n := N.to_nat (Byte.to_N p / 4 + 4)) in *.
      apply dbind_some in H as ([] & r3 & Hg & H). apply dguard_some in Hg as [Hw' ->]. apply Nat.leb_le in Hw'.
      apply dbind_some in H as (a & r2 & Ha & H). apply array_codec in Ha as [La ->].
      apply dbind_some in H as ([] & r3 & Hg & H). apply dguard_some in Hg as [Hg ->]. apply dret_some in H as [-> ->].
      pose proof (of_le_lt a) as U. rewrite La in U.
      assert (2 ^ 30 <= of_le a /\ 256 ^ N.of_nat (n - 1) <= of_le a) as [A B].
      { destruct (Nat.eqb_spec n 4) as [E4|E4]; apply N.leb_le in Hg.
        - rewrite E4. change (256 ^ N.of_nat (4 - 1)) with 16777216. change (2 ^ 30) with 1073741824 in *. lia.
        - split; [|done]. etransitivity; [|exact Hg]. rewrite pow256. apply N.pow_le_mono_r; lia. }
      assert (bytes_needed (of_le a) = n) as Hn by (apply needed_unique; [lia|done..]).
      split.
      * eapply N.lt_le_trans; [exact U|]. apply N.pow_le_mono_r; lia.
      * unfold enc_compact. assert (2 ^ 6 <= 2 ^ 30 /\ 2 ^ 14 <= 2 ^ 30) as [? ?] by (split; apply N.pow_le_mono_r; lia).
        rewrite !(proj2 (N.ltb_ge _ _)) by lia. rewrite Hn. unfold enc_byte, enc_array. cbn [app]. f_equal.
        -- replace (4 * (N.of_nat n - 4) + 3) with (Byte.to_N p) by lia. by rewrite byte_of_to_N.
        -- f_equal. rewrite <- La. by rewrite le_of_le.
Qed.

Lemma times_reads {A} (valid : A -> Prop) e d l r : reads_back valid e d -> Forall valid l ->
  dec_times (length l) d (concat (map e l) ++ r) = Some (l, r).
Proof.
  intros R H. induction H as [|a l Ha _ IH]; [done|]. cbn [length dec_times map concat]. unfold dbind at 1.
  rewrite <- app_assoc, R by done. unfold dbind. by rewrite IH.
Qed.
Lemma times_exact {A} (valid : A -> Prop) e d n : only_encodings valid e d -> forall i l r,
  dec_times n d i = Some (l, r) -> length l = n /\ Forall valid l /\ i = concat (map e l) ++ r.
Proof.
  intros X. induction n as [|n IH]; intros i l r H; cbn [dec_times] in H.
  - apply dret_some in H as [-> ->]. done.
  - apply dbind_some in H as (a & r1 & Ha & H). apply dbind_some in H as (l' & r2 & Hl & H).
    apply dret_some in H as [-> ->]. apply X in Ha as [Va ->]. apply IH in Hl as (L & F & ->).
    cbn [length map concat]. rewrite app_assoc. split_and!; [lia|by constructor|done].
Qed.

Lemma vec_codec {A} (valid : A -> Prop) e d : codec valid e d -> codec (valid_vec valid) (enc_vec e) (dec_vec d).
Proof.
  intros [R X]. destruct (compact_codec 4 ltac:(lia)) as [Rc Xc]. change (256 ^ N.of_nat 4) with (2 ^ 32) in *. split.
  - intros l r [L F]. unfold enc_vec, dec_vec. rewrite <- app_assoc. unfold dbind. rewrite Rc by done.
    rewrite Nat2N.id. by eapply times_reads.
  - intros i l r H. apply dbind_some in H as (n & r1 & Hn & H). apply Xc in Hn as [Ln ->].
    eapply times_exact in H as (L & F & ->); [|done]. split.
    + split; [|done]. rewrite L. lia.
    + unfold enc_vec. rewrite <- app_assoc. f_equal. f_equal. lia.
Qed.

Lemma option_codec {A} (valid : A -> Prop) e d : codec valid e d -> codec (valid_option valid) (enc_option e) (dec_option d).
Proof.
  intros [R X]. split.
  - intros [a|] r H; cbn [enc_option app]; unfold dec_option, dbind at 1, dec_byte; [|done]. unfold dbind. by rewrite R.
  - intros i o r H. apply dbind_some in H as (t & r1 & Ht & H). apply byte_codec in Ht as [_ ->].
    destruct t; try discriminate H.
    + apply dret_some in H as [-> ->]. done.
    + apply dbind_some in H as (a & r2 & Ha & H). apply dret_some in H as [-> ->]. apply X in Ha as [V ->]. done.
Qed.

Lemma tag_codec t : codec (fun _ : unit => True) (fun _ => enc_tag t) (dec_tag t).
Proof.
  split.
  - intros [] r _. unfold dec_tag, dbind. cbn. destruct t; done.
  - intros i [] r H. apply dbind_some in H as (b & r1 & Hb & H). apply byte_codec in Hb as [_ ->].
    apply dguard_some in H as [E ->]. apply Byte.byte_dec_bl in E. by subst b.
Qed.

(** ** Consequences *)
Lemma codec_inj {A} (valid : A -> Prop) e d a a' r r' : reads_back valid e d -> valid a -> valid a' ->
  e a ++ r = e a' ++ r' -> a = a' /\ r = r'.
Proof. intros R V V' H. pose proof (R a r V) as P. rewrite H, R in P by done. by simplify_eq. Qed.
