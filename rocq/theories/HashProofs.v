(** Proofs about the digests (C125): their sizes, and the reduction of collisions of SHA-256 to its
    compression function. *)
From Coq Require Import NArith ZArith List String Ascii Bool Lia.
From Verif Require Import Base AirdropModel AirdropSpec AirdropMerkle Bech32Model Bech32Spec Bech32Proofs HashModel HashSpec.
Import ListNotations.
Open Scope N_scope.
Open Scope list_scope.

Lemma w32_mod n : w32 n = n mod 4294967296.
Proof. unfold w32. change 4294967295 with (N.ones 32). rewrite N.land_ones. reflexivity. Qed.
Lemma w32_lt n : w32 n < 4294967296.
Proof. rewrite w32_mod. apply N.mod_lt. discriminate. Qed.
Lemma land255 n : N.land n 255 = n mod 256.
Proof. change 255 with (N.ones 8). rewrite N.land_ones. reflexivity. Qed.
Lemma be4_eq a : be4 a = [a / 16777216 mod 256; a / 65536 mod 256; a / 256 mod 256; a mod 256].
Proof. unfold be4. cbn [map]. rewrite !land255, !N.shiftr_div_pow2. change (2 ^ 0) with 1. rewrite N.div_1_r. reflexivity. Qed.

Ltac Zify.zify_post_hook ::= Z.to_euclidean_division_equations.

Lemma be4_back a b c d : a < 256 -> b < 256 -> c < 256 -> d < 256 ->
  be4 (16777216 * a + 65536 * b + 256 * c + d) = [a; b; c; d].
Proof.
  intros. rewrite be4_eq. set (x := 16777216 * a + 65536 * b + 256 * c + d).
  assert (x / 16777216 = a) by (unfold x; lia). assert (x / 65536 = 256 * a + b) by (unfold x; lia).
  assert (x / 256 = 65536 * a + 256 * b + c) by (unfold x; lia).
  repeat f_equal; [lia|lia|lia|unfold x; lia].
Qed.
Lemma be_words_be4 a : a < 4294967296 -> be_words (be4 a) = [a].
Proof. intros. rewrite be4_eq. cbn [be_words]. f_equal. lia. Qed.
Lemma be4_inj a b : a < 4294967296 -> b < 4294967296 -> be4 a = be4 b -> a = b.
Proof. intros A B E. apply (f_equal be_words) in E. rewrite !be_words_be4 in E by assumption. now injection E. Qed.
Lemma be4_len a : List.length (be4 a) = 4%nat.
Proof. reflexivity. Qed.
Lemma be4_byte a : Forall (fun x => x < 256) (be4 a).
Proof. rewrite be4_eq. repeat constructor; apply N.mod_lt; discriminate. Qed.

(** Lists whose length is a multiple of four *)
Definition fours (l : list N) : Prop := exists k, List.length l = (4 * k)%nat.
Lemma fours_split l : fours l -> l = [] \/ exists a b c d r, l = a :: b :: c :: d :: r /\ fours r.
Proof.
  intros [k E]. destruct l as [|a [|b [|c [|d r]]]]; cbn in E; [now left|lia|lia|lia|].
  right. exists a, b, c, d, r. split; [reflexivity|]. exists (k - 1)%nat. lia.
Qed.
Lemma be_words_back : forall n l, (List.length l <= n)%nat -> fours l -> Forall (fun x => x < 256) l ->
  flat_map be4 (be_words l) = l.
Proof.
  induction n as [|n IH]; intros l L F B; destruct (fours_split l F) as [->|(a & b & c & d & r & -> & F')];
    try reflexivity; cbn in L; [lia|].
  inversion B as [|? ? Ba B1]; subst. inversion B1 as [|? ? Bb B2]; subst. inversion B2 as [|? ? Bc B3]; subst.
  inversion B3 as [|? ? Bd B4]; subst. cbn [be_words flat_map]. rewrite be4_back by assumption. cbn [app].
  rewrite IH; [reflexivity|lia|assumption|assumption].
Qed.
Lemma be_words_app : forall n l m, (List.length l <= n)%nat -> fours l -> be_words (l ++ m) = be_words l ++ be_words m.
Proof.
  induction n as [|n IH]; intros l m L F; destruct (fours_split l F) as [->|(a & b & c & d & r & -> & F')];
    try reflexivity; cbn in L; [lia|].
  cbn [be_words app]. rewrite IH; [reflexivity|lia|assumption].
Qed.
Lemma be_words_len : forall k l, List.length l = (4 * k)%nat -> List.length (be_words l) = k.
Proof.
  induction k as [|k IH]; intros l E.
  - destruct l; [reflexivity|discriminate].
  - destruct l as [|a [|b [|c [|d r]]]]; cbn in E; try lia. cbn. f_equal. apply IH. lia.
Qed.

(** Blocks *)
Lemma blocks_concat : forall n w, (List.length w <= n)%nat -> List.concat (blocks n w) = w.
Proof.
  induction n as [|n IH]; intros w L; destruct w as [|x w]; try reflexivity; [cbn in L; lia|].
  cbn [blocks List.concat]. rewrite IH; [apply firstn_skipn|]. rewrite skipn_length. cbn [List.length] in *. lia.
Qed.
Lemma blocks_count : forall n w w', List.length w = List.length w' -> List.length (blocks n w) = List.length (blocks n w').
Proof.
  induction n as [|n IH]; intros [|x w] [|y w'] E; try reflexivity; try discriminate E.
  cbn [blocks List.length]. f_equal. apply IH. rewrite !skipn_length. lia.
Qed.
Lemma blocks_16 : forall n w, (exists k, List.length w = (16 * k)%nat) -> Forall (fun b => List.length b = 16%nat) (blocks n w).
Proof.
  induction n as [|n IH]; intros w [k E]; destruct w as [|x w]; try constructor.
  - rewrite firstn_length. destruct k; [discriminate E|]. lia.
  - apply IH. exists (k - 1)%nat. rewrite skipn_length. lia.
Qed.

(** Bytes of texts *)
Lemma octets_byte s : Forall (fun x => x < 256) (octets s).
Proof. unfold octets. induction (list_ascii_of_string s); constructor; [apply N_ascii_bounded|assumption]. Qed.
Lemma octets_len s : List.length (octets s) = String.length s.
Proof. unfold octets. rewrite map_length. induction s; cbn; [reflexivity|now f_equal]. Qed.
Lemma of_octets_octets s : of_octets (octets s) = s.
Proof.
  unfold of_octets, octets. rewrite map_map. rewrite (map_ext _ (fun a => a)) by apply ascii_N_embedding.
  rewrite map_id. apply string_of_list_ascii_of_string.
Qed.
Lemma octets_of_octets l : Forall (fun x => x < 256) l -> octets (of_octets l) = l.
Proof.
  intros F. unfold of_octets, octets. rewrite list_ascii_of_string_of_list_ascii, map_map.
  induction F as [|x l B F IH]; [reflexivity|]. cbn. rewrite N_ascii_embedding by assumption. now f_equal.
Qed.
Lemma of_octets_len l : String.length (of_octets l) = List.length l.
Proof.
  unfold of_octets. rewrite <- (map_length ascii_of_N l). induction (map ascii_of_N l); cbn; [reflexivity|now f_equal].
Qed.

(** Chaining values *)
Definition chaining (n : nat) (v : list N) : Prop := List.length v = n /\ Forall (fun x => x < 4294967296) v.
Lemma add_words_lt l m : Forall (fun x => x < 4294967296) (add_words l m).
Proof. unfold add_words. induction (combine l m); constructor; [apply w32_lt|assumption]. Qed.
Lemma sha_round_len st k : List.length (fst st) = 8%nat -> List.length (fst (sha_round st k)) = 8%nat.
Proof.
  destruct st as [v w]. cbn [fst]. intros L.
  destruct v as [|a [|b [|c [|d [|e [|f [|g [|h [|? ?]]]]]]]]]; try discriminate L. reflexivity.
Qed.
Lemma sha_rounds_len ks : forall st, List.length (fst st) = 8%nat -> List.length (fst (fold_left sha_round ks st)) = 8%nat.
Proof. induction ks as [|k ks IH]; intros st L; [exact L|]. cbn [fold_left]. apply IH, sha_round_len, L. Qed.
Lemma sha_block_ok v b : List.length v = 8%nat -> chaining 8 (sha_block v b).
Proof.
  intros L. split; [|apply add_words_lt]. unfold sha_block, add_words. rewrite map_length, combine_length.
  rewrite sha_rounds_len by exact L. rewrite L. reflexivity.
Qed.
Lemma sha_blocks_ok bs : forall v, chaining 8 v -> chaining 8 (fold_left sha_block bs v).
Proof. induction bs as [|b bs IH]; intros v C; [exact C|]. cbn [fold_left]. apply IH, sha_block_ok, C. Qed.
Lemma sha_iv_ok : chaining 8 sha_iv.
Proof. split; [reflexivity|]. repeat constructor. Qed.
Lemma flat_be4_len v : List.length (flat_map be4 v) = (4 * List.length v)%nat.
Proof. induction v as [|a v IH]; [reflexivity|]. cbn [flat_map List.length]. rewrite app_length, IH, be4_len. lia. Qed.
Lemma flat_be4_byte v : Forall (fun x => x < 256) (flat_map be4 v).
Proof. induction v as [|a v IH]; [constructor|]. cbn [flat_map]. apply Forall_app. split; [apply be4_byte|exact IH]. Qed.
Lemma app_split (p q r t : list N) : List.length p = List.length q -> p ++ r = q ++ t -> p = q /\ r = t.
Proof.
  revert q. induction p as [|x p IH]; intros [|y q] L E; try discriminate L; [now split|].
  cbn [app] in E. injection E as -> E. destruct (IH q) as [-> ->]; [now injection L|exact E|now split].
Qed.
Lemma flat_be4_inj : forall v w, Forall (fun x => x < 4294967296) v -> Forall (fun x => x < 4294967296) w ->
  List.length v = List.length w -> flat_map be4 v = flat_map be4 w -> v = w.
Proof.
  induction v as [|a v IH]; intros [|b w] V W L E; try discriminate L; [reflexivity|].
  inversion V as [|? ? Va Vr]; inversion W as [|? ? Wb Wr]; subst. cbn [flat_map] in E.
  destruct (app_split _ _ _ _ (eq_trans (be4_len a) (eq_sym (be4_len b))) E) as [E1 E2].
  rewrite (be4_inj a b Va Wb E1). f_equal. apply IH; auto.
Qed.

Lemma sha256_message s : sha256_of s = of_octets (flat_map be4 (fold_left sha_block (message s) sha_iv)).
Proof. unfold sha256_of, message, bit_length. now rewrite octets_len. Qed.
Lemma sha256_length s : String.length (sha256_of s) = 32%nat.
Proof.
  rewrite sha256_message, of_octets_len, flat_be4_len.
  destruct (sha_blocks_ok (message s) sha_iv sha_iv_ok) as [-> _]. reflexivity.
Qed.
Lemma sha256_state x y : sha256_of x = sha256_of y ->
  fold_left sha_block (message x) sha_iv = fold_left sha_block (message y) sha_iv.
Proof.
  rewrite !sha256_message. intros E. apply (f_equal octets) in E. rewrite !octets_of_octets in E by apply flat_be4_byte.
  destruct (sha_blocks_ok (message x) sha_iv sha_iv_ok) as [Lx Wx].
  destruct (sha_blocks_ok (message y) sha_iv sha_iv_ok) as [Ly Wy].
  revert Lx Wx Ly Wy E. generalize (fold_left sha_block (message x) sha_iv) (fold_left sha_block (message y) sha_iv).
  intros v w Lx Wx Ly Wy E. apply flat_be4_inj; congruence.
Qed.

(** RIPEMD-160 *)
Lemma rip_round_len f k b v rs : List.length v = 5%nat -> List.length (rip_round f k b v rs) = 5%nat.
Proof. intros L. destruct v as [|? [|? [|? [|? [|? [|? ?]]]]]]; try discriminate L. reflexivity. Qed.
Lemma rip_rounds_len f k b rs : forall v, List.length v = 5%nat -> List.length (fold_left (rip_round f k b) rs v) = 5%nat.
Proof. induction rs as [|r rs IH]; intros v L; [exact L|]. cbn [fold_left]. apply IH, rip_round_len, L. Qed.
Lemma rip_line_len fs ks rounds v b : List.length v = 5%nat -> List.length (rip_line fs ks rounds v b) = 5%nat.
Proof.
  unfold rip_line. revert v. induction (combine [0; 1; 2; 3; 4]%nat (combine fs ks)) as [|g l IH]; intros v L; [exact L|].
  cbn [fold_left]. apply IH, rip_rounds_len, L.
Qed.
Lemma rip_block_len v b : List.length v = 5%nat -> List.length (rip_block v b) = 5%nat.
Proof.
  intros L. unfold rip_block.
  pose proof (rip_line_len [0; 1; 2; 3; 4]%nat rip_left_k rip_left v b L) as L1.
  pose proof (rip_line_len [4; 3; 2; 1; 0]%nat rip_right_k rip_right v b L) as L2.
  revert L1 L2. generalize (rip_line [0; 1; 2; 3; 4]%nat rip_left_k rip_left v b) (rip_line [4; 3; 2; 1; 0]%nat rip_right_k rip_right v b).
  intros p q L1 L2.
  destruct v as [|? [|? [|? [|? [|? [|? ?]]]]]]; try discriminate L.
  destruct p as [|? [|? [|? [|? [|? [|? ?]]]]]]; try discriminate L1.
  destruct q as [|? [|? [|? [|? [|? [|? ?]]]]]]; try discriminate L2. reflexivity.
Qed.
Lemma le4_len a : List.length (le4 a) = 4%nat.
Proof. reflexivity. Qed.
Lemma ripemd160_length s : String.length (ripemd160_of s) = 20%nat.
Proof.
  unfold ripemd160_of. rewrite of_octets_len.
  match goal with |- context [fold_left rip_block ?bs rip_iv] => generalize bs end.
  intros bs. assert (G : forall v, List.length v = 5%nat -> List.length (fold_left rip_block bs v) = 5%nat).
  { induction bs as [|b bs IH]; intros v L; [exact L|]. cbn [fold_left]. apply IH, rip_block_len, L. }
  specialize (G rip_iv eq_refl). revert G. generalize (fold_left rip_block bs rip_iv). intros v.
  destruct v as [|? [|? [|? [|? [|? [|? ?]]]]]]; try discriminate. reflexivity.
Qed.

(** Calls *)
Lemma state_dec (p q : list N * list N) : {p = q} + {p <> q}.
Proof. repeat decide equality. Qed.
Definition clash (l m : list (list N * list N)) : Prop :=
  exists v b w c, In (v, b) l /\ In (w, c) m /\ (v, b) <> (w, c) /\ sha_block v b = sha_block w c.
Lemma chains_clash : forall bs cs v w, List.length bs = List.length cs ->
  fold_left sha_block bs v = fold_left sha_block cs w ->
  (v = w /\ bs = cs) \/ clash (calls_from v bs) (calls_from w cs).
Proof.
  induction bs as [|b bs IH]; intros [|c cs] v w L E; try discriminate L; [now left|].
  cbn [fold_left] in E. cbn [List.length] in L. injection L as L. cbn [calls_from].
  destruct (IH cs _ _ L E) as [[H ->]|(v1 & b1 & w1 & c1 & I & J & D & H)].
  - destruct (state_dec (v, b) (w, c)) as [P|P].
    + injection P as -> ->. now left.
    + right. exists v, b, w, c. split; [now left|]. split; [now left|]. split; assumption.
  - right. exists v1, b1, w1, c1. split; [now right|]. split; [now right|]. split; assumption.
Qed.
Lemma last_call bs b : forall v, In (fold_left sha_block bs v, b) (calls_from v (bs ++ [b])).
Proof. induction bs as [|x bs IH]; intros v; cbn [app calls_from fold_left]; [now left|]. right. apply IH. Qed.

(** The message of a text *)
Definition suffix (n : N) : list N := be4 (N.shiftr n 32) ++ be4 (w32 n).
Definition zeros (n : nat) : list N := repeat 0 (N.to_nat ((119 - N.of_nat n mod 64) mod 64)).
Definition front (s : string) : list N := octets s ++ 128 :: zeros (String.length s).
Definition words (s : string) : list N := be_words (front s ++ suffix (8 * N.of_nat (String.length s))).
Lemma message_words s : message s = blocks (List.length (words s)) (words s).
Proof.
  unfold message, words, front, padded, zeros, suffix. rewrite octets_len, <- app_assoc. reflexivity.
Qed.
Lemma front_len s : exists k, List.length (front s) = (64 * k + 56)%nat.
Proof.
  unfold front, zeros. rewrite app_length, octets_len. cbn [List.length]. rewrite repeat_length.
  generalize (String.length s). intros n.
  exists (N.to_nat ((N.of_nat n + 1 + (119 - N.of_nat n mod 64) mod 64) / 64)). lia.
Qed.
Lemma front_fours s : fours (front s).
Proof. destruct (front_len s) as [k E]. exists (16 * k + 14)%nat. rewrite E. lia. Qed.
Lemma front_byte s : Forall (fun x => x < 256) (front s).
Proof.
  unfold front, zeros. apply Forall_app. split; [apply octets_byte|]. constructor; [reflexivity|].
  generalize (N.to_nat ((119 - N.of_nat (String.length s) mod 64) mod 64)). induction n; constructor; [reflexivity|assumption].
Qed.
Lemma words_eq s : hashable s ->
  words s = be_words (front s) ++ [8 * N.of_nat (String.length s) / 4294967296; 8 * N.of_nat (String.length s) mod 4294967296].
Proof.
  unfold hashable. intros H. unfold words. rewrite (be_words_app _ _ _ (le_n _) (front_fours s)). f_equal.
  unfold suffix. rewrite (be_words_app 4 (be4 _) _ (le_n _)) by (exists 1%nat; reflexivity).
  rewrite !be_words_be4; [|apply w32_lt|].
  - rewrite w32_mod, N.shiftr_div_pow2. reflexivity.
  - rewrite N.shiftr_div_pow2. change (2 ^ 32) with 4294967296. lia.
Qed.
Lemma words_len s : exists k, List.length (words s) = (16 * k)%nat /\ (0 < k)%nat.
Proof.
  destruct (front_len s) as [k E]. exists (k + 1)%nat. split; [|lia]. unfold words. apply be_words_len.
  rewrite app_length, E. cbn. lia.
Qed.
Lemma words_inj x y : String.length x = String.length y -> words x = words y -> x = y.
Proof.
  intros L E. unfold words in E.
  assert (F : forall s, flat_map be4 (be_words (front s ++ suffix (8 * N.of_nat (String.length s)))) = front s ++ suffix (8 * N.of_nat (String.length s))).
  { intros s. eapply be_words_back; [apply le_n| |].
    - destruct (front_len s) as [k Ek]. exists (16 * k + 16)%nat. rewrite app_length, Ek. cbn. lia.
    - apply Forall_app. split; [apply front_byte|]. apply Forall_app. split; apply be4_byte. }
  apply (f_equal (flat_map be4)) in E. rewrite !F, L in E. apply app_inv_tail in E.
  unfold front in E. rewrite L in E. apply app_inv_tail in E.
  rewrite <- (of_octets_octets x), <- (of_octets_octets y). now f_equal.
Qed.
Lemma message_concat s : List.concat (message s) = words s.
Proof. rewrite message_words. apply blocks_concat, le_n. Qed.
Lemma message_last s : hashable s -> exists bs b r, message s = bs ++ [b]
  /\ rev b = 8 * N.of_nat (String.length s) mod 4294967296 :: 8 * N.of_nat (String.length s) / 4294967296 :: r.
Proof.
  intros H. pose proof (message_concat s) as C. rewrite (words_eq s H) in C.
  assert (S : Forall (fun b => List.length b = 16%nat) (message s)).
  { rewrite message_words. apply blocks_16. destruct (words_len s) as (k & E & _). now exists k. }
  destruct (@exists_last _ (message s)) as (bs & b & E).
  { intros E. rewrite E in C. symmetry in C. now apply app_eq_nil in C. }
  exists bs, b. rewrite E in C, S. apply Forall_app in S. destruct S as [_ S]. inversion S as [|? ? L _]; subst.
  rewrite concat_app in C. cbn [List.concat] in C. rewrite app_nil_r in C.
  apply (f_equal (@rev N)) in C. rewrite !rev_app_distr in C. cbn [rev app] in C.
  rewrite <- (rev_length b) in L. destruct (rev b) as [|p [|q r]]; try discriminate L.
  cbn [app] in C. injection C as -> -> _. exists r. split; [exact E|reflexivity].
Qed.

Theorem sha256_reduction x y : hashable x -> hashable y -> x <> y -> sha256_of x = sha256_of y -> breaks_sha256 x y.
Proof.
  intros Hx Hy D E. apply sha256_state in E. unfold breaks_sha256, calls.
  destruct (Nat.eq_dec (String.length x) (String.length y)) as [L|L].
  - assert (W : List.length (words x) = List.length (words y)).
    { rewrite !words_eq, !app_length by assumption. rewrite L. f_equal.
      destruct (front_fours x) as [k Ek]. rewrite (be_words_len _ _ Ek).
      destruct (front_fours y) as [j Ej]. rewrite (be_words_len _ _ Ej).
      revert Ek Ej. unfold front. rewrite !app_length, !octets_len. cbn [List.length]. rewrite L. lia. }
    destruct (chains_clash (message x) (message y) sha_iv sha_iv) as [[_ M]|C]; [|exact E| |exact C].
    + rewrite !message_words, W. apply blocks_count, W.
    + exfalso. apply D, words_inj; [exact L|]. rewrite <- !message_concat. now f_equal.
  - destruct (message_last x Hx) as (bs & b & r & Mx & Rx). destruct (message_last y Hy) as (cs & c & t & My & Ry).
    rewrite Mx, My in *. rewrite !fold_left_app in E. cbn [fold_left] in E.
    exists (fold_left sha_block bs sha_iv), b, (fold_left sha_block cs sha_iv), c.
    split; [apply last_call|]. split; [apply last_call|]. split; [|exact E].
    intros P. injection P as _ P. subst c. rewrite Rx in Ry. injection Ry as R1 R2 _.
    unfold hashable in *. lia.
Qed.

(** The contract with the real hash functions *)
Lemma real_digests A : real_hashes A -> digests32 A.
Proof. intros [H _] s. rewrite H. apply sha256_length. Qed.
Lemma osmo_ext f g rip key : f key = g key -> osmo_address f rip key = osmo_address g rip key.
Proof. unfold osmo_address. now intros ->. Qed.
Lemma real_keys A : real_hashes A -> bech32_keys A ripemd160_of.
Proof.
  intros [H K]. split; [|exact ripemd160_length]. intros key. rewrite K. f_equal. apply osmo_ext. now rewrite H.
Qed.

Theorem real_membership A t root ps k n : real_hashes A -> hex32 root = Ok (troot A t) ->
  (forall l, In l (leaf_string k n :: leaf_strings t) -> String.length l <> 64%nat /\ hashable l) ->
  verify_merkle_proof A root ps k n = Ok tt ->
  In (k, n) (leaves t)
  \/ exists x y, In x (leaf_string k n :: pair_strings A (sha256 A (leaf_string k n)) ps)
       /\ In y (leaf_strings t ++ node_strings A t) /\ breaks_sha256 x y.
Proof.
  intros R H S V. pose proof (real_digests A R) as D.
  destruct (merkle_sound_short A t root ps k n D H (fun l I => proj1 (S l I)) V) as [I|(x & y & Ix & Iy & N & E)]; [now left|].
  right. exists x, y. split; [exact Ix|]. split; [exact Iy|].
  assert (S64 : forall s, String.length s = 64%nat -> hashable s) by (intros s L; unfold hashable; rewrite L; reflexivity).
  apply sha256_reduction; [| |exact N|].
  - destruct Ix as [<-|Ix]; [apply S; now left|]. apply S64.
    eapply pair_strings_len; [exact D| |exact Ix]. apply D.
  - apply in_app_or in Iy. destruct Iy as [Iy|Iy]; [apply S; now right|]. apply S64. eapply node_strings_len; eauto.
  - destruct R as [R _]. rewrite <- !R. exact E.
Qed.
Lemma real_same_signer A w1 w2 id1 id2 a1 a2 signer k1 k2 : real_hashes A ->
  areachable A w1 -> areachable A w2 -> drop_at (aw_st w1) id1 a1 -> drop_at (aw_st w2) id2 a2 ->
  a_kind a1 = KBearer signer k1 -> a_kind a2 = KBearer signer k2 -> hashable k1 -> hashable k2 ->
  k1 = k2 \/ breaks_sha256 k1 k2
  \/ (sha256_of k1 <> sha256_of k2 /\ ripemd160_of (sha256_of k1) = ripemd160_of (sha256_of k2)).
Proof.
  intros R R1 R2 D1 D2 K1 K2 H1 H2.
  pose proof (bearer_same_signer A ripemd160_of w1 w2 id1 id2 a1 a2 signer k1 k2 (real_keys A R) R1 R2 D1 D2 K1 K2) as E.
  destruct R as [R _]. rewrite !R in E.
  destruct (string_dec k1 k2) as [N|N]; [now left|]. right.
  destruct (string_dec (sha256_of k1) (sha256_of k2)) as [S|S]; [left; now apply sha256_reduction|right; now split].
Qed.
Lemma signed_digest h1 c1 n1 h2 c2 n2 :
  let x := bearer_string h1 c1 n1 in let y := bearer_string h2 c2 n2 in
  has_char "/" c1 = false -> has_char "/" c2 = false -> hashable x -> hashable y -> sha256_of x = sha256_of y ->
  (h1 = h2 /\ c1 = c2 /\ n1 = n2) \/ breaks_sha256 x y.
Proof.
  intros x y F1 F2 H1 H2 E. destruct (string_dec x y) as [S|S]; [left; now apply bearer_string_inj|].
  right. now apply sha256_reduction.
Qed.
