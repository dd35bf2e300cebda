(** Pascal's triangle. *)
From Verif Require Import Base RBase PolyModel.
Open Scope Z_scope.

Fixpoint zfact (n : nat) : Z := match n with O => 1 | S k => Z.of_nat n * zfact k end.

(** Binomial coefficient (i+k choose k) by Pascal's rule. *)
Fixpoint bin (i : nat) : nat -> Z :=
  match i with
  | O => fun _ => 1
  | S i' => fix go (k : nat) : Z := match k with O => 1 | S k' => bin i' (S k') + go k' end
  end.

Lemma bin_0_r i : bin i 0 = 1.
Proof. now destruct i. Qed.
Lemma bin_SS i k : bin (S i) (S k) = bin i (S k) + bin (S i) k.
Proof. reflexivity. Qed.
Lemma bin_pos i : forall k, 1 <= bin i k.
Proof.
  induction i as [|i IH]; intros k; [reflexivity|]. induction k as [|k IK]; [reflexivity|]. rewrite bin_SS. specialize (IH (S k)). lia.
Qed.
Lemma bin_fact i : forall k, bin i k * zfact i * zfact k = zfact (i + k).
Proof.
  induction i as [|i IH]; intros k; [cbn [bin zfact Nat.add]; ring|].
  induction k as [|k IK]; [rewrite bin_0_r, Nat.add_0_r; cbn [zfact]; ring|].
  rewrite bin_SS. specialize (IH (S k)).
  replace (S i + S k)%nat with (S (S i + k)) by lia.
  change (zfact (S (S i + k))) with (Z.of_nat (S (S i + k)) * zfact (S i + k)).
  replace (i + S k)%nat with (S i + k)%nat in IH by lia. rewrite <- IK at 1.
  replace (bin i (S k) * zfact (S i) * zfact (S k)) with (Z.of_nat (S i) * (bin i (S k) * zfact i * zfact (S k))) by (cbn [zfact]; ring).
  assert (E : (bin i (S k) + bin (S i) k) * zfact (S i) * zfact (S k)
    = Z.of_nat (S i) * (bin i (S k) * zfact i * zfact (S k)) + Z.of_nat (S k) * (bin (S i) k * zfact (S i) * zfact k)).
  { change (zfact (S i)) with (Z.of_nat (S i) * zfact i). change (zfact (S k)) with (Z.of_nat (S k) * zfact k). ring. }
  rewrite E, IH, IK. replace (Z.of_nat (S (S i + k))) with (Z.of_nat (S i) + Z.of_nat (S k)) by lia. ring.
Qed.

(** The rows of the triangle: row r has the entries k = 0 .. n - r. *)
Definition row (n r : nat) (len : nat) : list Z := map (bin r) (seq 0 len).
Fixpoint rows (n r : nat) : list Z :=
  match r with O => [] | S q => rows n q ++ row n q (S n - q) end.

Lemma row_len n r len : Zlen (row n r len) = Z.of_nat len.
Proof. unfold row, Zlen. now rewrite map_length, seq_length. Qed.
Lemma row_S n r len : row n r (S len) = row n r len ++ [bin r len].
Proof. unfold row. now rewrite seq_S, map_app. Qed.
Lemma row_get n r len k : (k < len)%nat -> zget (row n r len) (Z.of_nat k) = Some (bin r k).
Proof.
  induction len as [|len IH]; intros L; [lia|]. rewrite row_S. destruct (Nat.eq_dec k len) as [->|].
  - rewrite zget_app_r by (rewrite row_len; lia). rewrite row_len, Z.sub_diag. reflexivity.
  - rewrite zget_app_l by (rewrite row_len; lia). apply IH. lia.
Qed.

Lemma rows_len n r : (r <= S n)%nat -> Zlen (rows n r) = pascal_begin n r.
Proof.
  induction r as [|r IH]; intros L; [reflexivity|]. cbn [rows pascal_begin]. rewrite Zlen_app, IH, row_len by lia. lia.
Qed.

(** A fast way to compute a row: prefix sums of the previous one. *)
Fixpoint psum (acc : Z) (l : list Z) : list Z :=
  match l with [] => [] | x :: r => (acc + x) :: psum (acc + x) r end.
Lemma psum_row i len : forall s, psum (bin (S i) s) (map (bin i) (seq (S s) len)) = map (bin (S i)) (seq (S s) len).
Proof.
  induction len as [|len IH]; intros s; [reflexivity|]. cbn [seq map psum]. rewrite Z.add_comm, <- bin_SS. f_equal. apply IH.
Qed.
Lemma psum_row0 n i len : psum 0 (row n i len) = row n (S i) len.
Proof.
  unfold row. destruct len as [|len]; [reflexivity|]. cbn [seq map psum]. rewrite !bin_0_r. cbn [Z.add]. f_equal.
  rewrite <- (psum_row i len 0). now rewrite bin_0_r.
Qed.
Fixpoint fast (i len : nat) : list Z := match i with O => repeat 1 len | S j => psum 0 (fast j len) end.
Lemma fast_row n i len : fast i len = row n i len.
Proof.
  induction i as [|i IH]; cbn [fast]; [|now rewrite IH, (psum_row0 n)].
  unfold row. assert (G : forall s, repeat 1 len = map (bin 0) (seq s len)); [|apply G]. induction len as [|len IL]; intros s; [reflexivity|]. cbn [repeat seq map bin]. f_equal. apply IL.
Qed.

Lemma fits_small : forallb (fun i => forallb in_int (fast i (34 - i))) (seq 0 34) = true.
Proof. vm_compute. reflexivity. Qed.

Lemma fits i k : (i + k <= 33)%nat -> in_int (bin i k) = true.
Proof.
  intros L. pose proof fits_small as F. rewrite forallb_forall in F. specialize (F i ltac:(apply in_seq; lia)).
  rewrite forallb_forall in F. apply F. rewrite (fast_row 0). unfold row. apply in_map, in_seq. lia.
Qed.

Lemma bin_17_17 : in_int (bin 17 17) = false.
Proof.
  assert (E : zget (fast 17 18) 17 = Some (bin 17 17)) by (rewrite (fast_row 0); apply (row_get 0 17 18 17); lia).
  assert (F : zget (fast 17 18) 17 = Some 2333606220) by (vm_compute; reflexivity).
  rewrite F in E. revert E. generalize (bin 17 17). intros z E. injection E as <-. reflexivity.
Qed.

(** Completing row [r], with the entries [0, j) already there. *)
Lemma pascal_row_spec n r : (r <= n)%nat -> forall todo j, (j + todo = S n - r)%nat ->
  match pascal_row (Z.of_nat n) (Z.of_nat (S n - r)) todo (Z.of_nat j) (rows n r ++ row n r j) with
  | Ok l => l = rows n r ++ row n r (j + todo) /\ (r <> 0%nat -> forall k, (1 <= k)%nat -> (j <= k < j + todo)%nat -> in_int (bin r k) = true)
  | Throw _ => False
  | UB => (r <> 0%nat) /\ exists k, (1 <= k)%nat /\ (j <= k < j + todo)%nat /\ in_int (bin r k) = false
  end.
Proof.
  intros LR. induction todo as [|todo IH]; intros j E; cbn [pascal_row].
  { rewrite Nat.add_0_r. split; auto. intros; lia. }
  assert (V : forall v, v = bin r j ->
     match pascal_row (Z.of_nat n) (Z.of_nat (S n - r)) todo (Z.of_nat j + 1) ((rows n r ++ row n r j) ++ [v]) with
     | Ok l => l = rows n r ++ row n r (j + S todo) /\ (r <> 0%nat -> forall k, (1 <= k)%nat -> (S j <= k < j + S todo)%nat -> in_int (bin r k) = true)
     | Throw _ => False
     | UB => (r <> 0%nat) /\ exists k, (1 <= k)%nat /\ (S j <= k < j + S todo)%nat /\ in_int (bin r k) = false
     end).
  { intros v ->. rewrite <- app_assoc, <- row_S. replace (Z.of_nat j + 1) with (Z.of_nat (S j)) by lia.
    specialize (IH (S j) ltac:(lia)). replace (S j + todo)%nat with (j + S todo)%nat in IH by lia. exact IH. }
  destruct (Nat.eq_dec r 0) as [->|NR].
  { replace (Z.of_nat (S n - 0) =? Z.of_nat n + 1) with true by lia. cbn [orb bind]. specialize (V 1 eq_refl).
    destruct (pascal_row _ _ _ _ _); auto.
    - destruct V as [V1 V2]. split; auto.
    - destruct V as [V1 _]. congruence. }
  replace (Z.of_nat (S n - r) =? Z.of_nat n + 1) with false by lia. cbn [orb].
  destruct (Nat.eq_dec j 0) as [->|NJ].
  { change (Z.of_nat 0 =? 0) with true. cbn [bind]. specialize (V 1 ltac:(now rewrite bin_0_r)).
    destruct (pascal_row _ _ _ _ _); auto.
    - destruct V as [V1 V2]. split; auto. intros NR' k K1 K2. apply V2; auto. lia.
    - destruct V as [V1 (k & K1 & K2 & K3)]. split; auto. exists k. repeat split; auto; lia. }
  replace (Z.of_nat j =? 0) with false by lia.
  destruct r as [|q]; [congruence|]. destruct j as [|j']; [congruence|].
  set (i := Z.of_nat (S n - S q)).
  assert (G1 : zget (rows n (S q) ++ row n (S q) (S j')) (Zlen (rows n (S q) ++ row n (S q) (S j')) - 1) = Some (bin (S q) j')).
  { rewrite Zlen_app, row_len. rewrite zget_app_r by (pose proof (Zlen_nonneg (rows n (S q))); lia).
    replace (Zlen (rows n (S q)) + Z.of_nat (S j') - 1 - Zlen (rows n (S q))) with (Z.of_nat j') by lia. apply row_get. lia. }
  assert (G2 : zget (rows n (S q) ++ row n (S q) (S j')) (Zlen (rows n (S q) ++ row n (S q) (S j')) - (i + 1)) = Some (bin q (S j'))).
  { cbn [rows]. rewrite !Zlen_app, !row_len. pose proof (Zlen_nonneg (rows n q)).
    rewrite zget_app_l by (rewrite Zlen_app, row_len; lia). rewrite zget_app_r by lia.
    replace (Zlen (rows n q) + Z.of_nat (S n - q) + Z.of_nat (S j') - (i + 1) - Zlen (rows n q)) with (Z.of_nat (S j')) by lia.
    apply row_get. lia. }
  rewrite G1, G2. rewrite Z.add_comm, <- bin_SS. unfold int_op. destruct (in_int (bin (S q) (S j'))) eqn:I; cbn [bind].
  - specialize (V _ eq_refl). destruct (pascal_row _ _ _ _ _); auto.
    + destruct V as [V1 V2]. split; auto. intros NR' k K1 K2. destruct (Nat.eq_dec k (S j')) as [->|]; auto. apply V2; auto. lia.
    + destruct V as [V1 (k & K1 & K2 & K3)]. split; auto. exists k. repeat split; auto; lia.
  - split; auto. exists (S j'). repeat split; auto; lia.
Qed.

Lemma pascal_rows_spec n : forall i r, (r + i = S n)%nat ->
  match pascal_rows (Z.of_nat n) i (rows n r) with
  | Ok l => l = rows n (S n) /\ (forall s k, (r <= s)%nat -> (1 <= s)%nat -> (1 <= k)%nat -> (s + k <= n)%nat -> in_int (bin s k) = true)
  | Throw _ => False
  | UB => exists s k, (1 <= s)%nat /\ (1 <= k)%nat /\ (s + k <= n)%nat /\ in_int (bin s k) = false
  end.
Proof.
  induction i as [|i IH]; intros r E; cbn [pascal_rows].
  { split; [f_equal; lia|]. intros; lia. }
  pose proof (pascal_row_spec n r ltac:(lia) (S i) 0 ltac:(lia)) as P.
  replace (S n - r)%nat with (S i) in P by lia. change (Z.of_nat 0) with 0 in P.
  replace (rows n r ++ row n r 0) with (rows n r) in P by (unfold row; cbn; now rewrite app_nil_r).
  destruct (pascal_row _ _ _ _ _) as [l|e|]; cbn [bind]; auto.
  - destruct P as [-> P2]. cbn [Nat.add] in P2. replace (rows n r ++ row n r (0 + S i)) with (rows n (S r)).
    2:{ cbn [rows]. f_equal. f_equal. lia. }
    specialize (IH (S r) ltac:(lia)). destruct (pascal_rows _ _ _); auto.
    destruct IH as [I1 I2]. split; auto. intros s k S1 S2 K1 K2. destruct (Nat.eq_dec s r) as [->|]; [|apply I2; auto; lia].
    apply P2; auto; lia.
  - destruct P as (R0 & k & K1 & K2 & K3). exists r, k. repeat split; auto; lia.
Qed.

Lemma pascal_generic_ok n : (n <= 33)%nat -> pascal_generic n = Ok (rows n (S n)).
Proof.
  intros L. unfold pascal_generic. pose proof (pascal_rows_spec n (S n) 0 ltac:(lia)) as P. cbn [rows] in P.
  destruct (pascal_rows _ _ _) as [l|e|]; [|easy|].
  - destruct P as [-> _]. reflexivity.
  - destruct P as (s & k & S1 & K1 & K2 & K3). rewrite fits in K3 by lia. discriminate.
Qed.

Lemma pascal_generic_ub n : (34 <= n)%nat -> pascal_generic n = UB.
Proof.
  intros L. unfold pascal_generic. pose proof (pascal_rows_spec n (S n) 0 ltac:(lia)) as P. cbn [rows] in P.
  destruct (pascal_rows _ _ _) as [l|e|]; [|easy|reflexivity].
  destruct P as [_ P]. specialize (P 17%nat 17%nat ltac:(lia) ltac:(lia) ltac:(lia) ltac:(lia)). rewrite bin_17_17 in P. discriminate.
Qed.

Lemma pascal_ok n : (n <= 33)%nat -> pascal n = Ok (rows n (S n)).
Proof.
  intros L. unfold pascal. destruct (Nat.eq_dec n 3) as [->|N3]; [reflexivity|]. destruct (Nat.eq_dec n 5) as [->|N5]; [reflexivity|].
  rewrite <- pascal_generic_ok by auto. do 6 (destruct n as [|n]; [congruence || reflexivity|]). reflexivity.
Qed.

Lemma rows_get n r i k : (i < r)%nat -> (r <= S n)%nat -> (i + k <= n)%nat ->
  zget (rows n r) (pascal_begin n i + Z.of_nat k) = Some (bin i k).
Proof.
  induction r as [|r IH]; intros I R K; [lia|]. cbn [rows]. pose proof (rows_len n r ltac:(lia)) as RL.
  destruct (Nat.eq_dec i r) as [->|N].
  - rewrite zget_app_r by lia. replace (pascal_begin n r + Z.of_nat k - Zlen (rows n r)) with (Z.of_nat k) by lia. apply row_get. lia.
  - rewrite zget_app_l; [apply IH; lia|]. rewrite RL.
    assert (M : forall a b, (a <= b)%nat -> (b <= S n)%nat -> pascal_begin n a <= pascal_begin n b).
    { intros a b AB. induction AB; intros; [lia|]. cbn [pascal_begin]. specialize (IHAB ltac:(lia)). lia. }
    specialize (M (S i) r ltac:(lia) ltac:(lia)). cbn [pascal_begin] in M. lia.
Qed.

Lemma pascal_begin_closed n r : (r <= S n)%nat -> 2 * pascal_begin n r = Z.of_nat r * (2 * Z.of_nat n + 3 - Z.of_nat r).
Proof. induction r as [|r IH]; intros L; [reflexivity|]. cbn [pascal_begin]. specialize (IH ltac:(lia)). nia. Qed.
