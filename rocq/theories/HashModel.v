(** The two digests verify.rs:7-29 takes from the sha2 and ripemd crates: SHA-256 (FIPS 180-4) and
    RIPEMD-160.  In most theorems they are parameters (AirdropModel.v api, Bech32Model.v);
    here they are computed, for C125 and for the data of the code's own tests (RepoAirdrop.v).
    Definitions only.  Byte strings are strings, words are numbers below 2^32. *)
From Coq Require Import NArith List String Ascii Bool.
Import ListNotations.
Open Scope string_scope.
Open Scope N_scope.
Open Scope list_scope.

Definition w32 (n : N) : N := N.land n 4294967295.
Definition addw (a b : N) : N := w32 (a + b).
Definition rotl (k a : N) : N := N.lor (w32 (N.shiftl a k)) (N.shiftr a (32 - k)).
Definition rotr (k a : N) : N := rotl (32 - k) a.
Definition notw (a : N) : N := N.lxor a 4294967295.

Definition octets (s : string) : list N := map N_of_ascii (list_ascii_of_string s).
Definition of_octets (l : list N) : string := string_of_list_ascii (map ascii_of_N l).

(** A big-endian and a little-endian word as four bytes and back *)
Definition be4 (a : N) : list N := map (fun k => N.land (N.shiftr a k) 255) [24; 16; 8; 0].
Definition le4 (a : N) : list N := rev (be4 a).
Fixpoint be_words (l : list N) : list N :=
  match l with
  | a :: b :: c :: d :: r => (16777216 * a + 65536 * b + 256 * c + d) :: be_words r
  | _ => []
  end.
Fixpoint le_words (l : list N) : list N :=
  match l with
  | a :: b :: c :: d :: r => (a + 256 * b + 65536 * c + 16777216 * d) :: le_words r
  | _ => []
  end.

(** Padding to whole blocks of 64 bytes: a one bit, zeros, the length in bits as eight bytes *)
Definition padded (length8 : list N) (l : list N) : list N :=
  let n := N.of_nat (List.length l) in
  l ++ 128 :: repeat 0 (N.to_nat ((119 - n mod 64) mod 64)) ++ length8.
Fixpoint blocks (n : nat) (words : list N) : list (list N) :=
  match n, words with
  | S n, _ :: _ => firstn 16 words :: blocks n (skipn 16 words)
  | _, _ => []
  end.
Definition bit_length (l : list N) : N := 8 * N.of_nat (List.length l).

(** ** SHA-256 *)
Definition sha_k : list N :=
  [1116352408; 1899447441; 3049323471; 3921009573; 961987163; 1508970993;
   2453635748; 2870763221; 3624381080; 310598401; 607225278; 1426881987;
   1925078388; 2162078206; 2614888103; 3248222580; 3835390401; 4022224774;
   264347078; 604807628; 770255983; 1249150122; 1555081692; 1996064986;
   2554220882; 2821834349; 2952996808; 3210313671; 3336571891; 3584528711;
   113926993; 338241895; 666307205; 773529912; 1294757372; 1396182291;
   1695183700; 1986661051; 2177026350; 2456956037; 2730485921; 2820302411;
   3259730800; 3345764771; 3516065817; 3600352804; 4094571909; 275423344;
   430227734; 506948616; 659060556; 883997877; 958139571; 1322822218;
   1537002063; 1747873779; 1955562222; 2024104815; 2227730452; 2361852424;
   2428436474; 2756734187; 3204031479; 3329325298].
Definition sha_iv : list N :=
  [1779033703; 3144134277; 1013904242; 2773480762;
   1359893119; 2600822924; 528734635; 1541459225].

Definition xor3 (a b c : N) : N := N.lxor a (N.lxor b c).
Definition sum0 (a : N) : N := xor3 (rotr 2 a) (rotr 13 a) (rotr 22 a).
Definition sum1 (a : N) : N := xor3 (rotr 6 a) (rotr 11 a) (rotr 25 a).
Definition sigma0 (a : N) : N := xor3 (rotr 7 a) (rotr 18 a) (N.shiftr a 3).
Definition sigma1 (a : N) : N := xor3 (rotr 17 a) (rotr 19 a) (N.shiftr a 10).
Definition ch (a b c : N) : N := N.lxor (N.land a b) (N.land (notw a) c).
Definition maj (a b c : N) : N := xor3 (N.land a b) (N.land a c) (N.land b c).
Definition at_ (l : list N) (k : nat) : N := nth k l 0.

(** One round: the eight working words and the window of the last sixteen schedule words *)
Definition sha_round (st : list N * list N) (k : N) : list N * list N :=
  let '(v, w) := st in
  match v with
  | [a; b; c; d; e; f; g; h] =>
      let t1 := addw (h + sum1 e) (addw (ch e f g) (k + at_ w 0)) in
      let t2 := addw (sum0 a) (maj a b c) in
      ([addw t1 t2; a; b; c; addw d t1; e; f; g],
       tl w ++ [addw (sigma1 (at_ w 14) + at_ w 9) (sigma0 (at_ w 1) + at_ w 0)])
  | _ => st
  end.
Definition add_words (l m : list N) : list N := map (fun p => addw (fst p) (snd p)) (combine l m).
Definition sha_block (v block : list N) : list N := add_words v (fst (fold_left sha_round sha_k (v, block))).
Definition sha256_of (s : string) : string :=
  let l := octets s in
  let n := bit_length l in
  let words := be_words (padded (be4 (N.shiftr n 32) ++ be4 (w32 n)) l) in
  of_octets (flat_map be4 (fold_left sha_block (blocks (List.length words) words) sha_iv)).

(** ** RIPEMD-160: two lines of five times sixteen rounds, each round with the index of the message
    word and the amount of the rotation *)
Definition rip_left : list (nat * N) :=
  [(0%nat, 11); (1%nat, 14); (2%nat, 15); (3%nat, 12); (4%nat, 5); (5%nat, 8); (6%nat, 7); (7%nat, 9);
   (8%nat, 11); (9%nat, 13); (10%nat, 14); (11%nat, 15); (12%nat, 6); (13%nat, 7); (14%nat, 9); (15%nat, 8);
   (7%nat, 7); (4%nat, 6); (13%nat, 8); (1%nat, 13); (10%nat, 11); (6%nat, 9); (15%nat, 7); (3%nat, 15);
   (12%nat, 7); (0%nat, 12); (9%nat, 15); (5%nat, 9); (2%nat, 11); (14%nat, 7); (11%nat, 13); (8%nat, 12);
   (3%nat, 11); (10%nat, 13); (14%nat, 6); (4%nat, 7); (9%nat, 14); (15%nat, 9); (8%nat, 13); (1%nat, 15);
   (2%nat, 14); (7%nat, 8); (0%nat, 13); (6%nat, 6); (13%nat, 5); (11%nat, 12); (5%nat, 7); (12%nat, 5);
   (1%nat, 11); (9%nat, 12); (11%nat, 14); (10%nat, 15); (0%nat, 14); (8%nat, 15); (12%nat, 9); (4%nat, 8);
   (13%nat, 9); (3%nat, 14); (7%nat, 5); (15%nat, 6); (14%nat, 8); (5%nat, 6); (6%nat, 5); (2%nat, 12);
   (4%nat, 9); (0%nat, 15); (5%nat, 5); (9%nat, 11); (7%nat, 6); (12%nat, 8); (2%nat, 13); (10%nat, 12);
   (14%nat, 5); (1%nat, 12); (3%nat, 13); (8%nat, 14); (11%nat, 11); (6%nat, 8); (15%nat, 5); (13%nat, 6)].
Definition rip_right : list (nat * N) :=
  [(5%nat, 8); (14%nat, 9); (7%nat, 9); (0%nat, 11); (9%nat, 13); (2%nat, 15); (11%nat, 15); (4%nat, 5);
   (13%nat, 7); (6%nat, 7); (15%nat, 8); (8%nat, 11); (1%nat, 14); (10%nat, 14); (3%nat, 12); (12%nat, 6);
   (6%nat, 9); (11%nat, 13); (3%nat, 15); (7%nat, 7); (0%nat, 12); (13%nat, 8); (5%nat, 9); (10%nat, 11);
   (14%nat, 7); (15%nat, 7); (8%nat, 12); (12%nat, 7); (4%nat, 6); (9%nat, 15); (1%nat, 13); (2%nat, 11);
   (15%nat, 9); (5%nat, 7); (1%nat, 15); (3%nat, 11); (7%nat, 8); (14%nat, 6); (6%nat, 6); (9%nat, 14);
   (11%nat, 12); (8%nat, 13); (12%nat, 5); (2%nat, 14); (10%nat, 13); (0%nat, 13); (4%nat, 7); (13%nat, 5);
   (8%nat, 15); (6%nat, 5); (4%nat, 8); (1%nat, 11); (3%nat, 14); (11%nat, 14); (15%nat, 6); (0%nat, 14);
   (5%nat, 6); (12%nat, 9); (2%nat, 12); (13%nat, 9); (9%nat, 12); (7%nat, 5); (10%nat, 15); (14%nat, 8);
   (12%nat, 8); (15%nat, 5); (10%nat, 12); (4%nat, 9); (1%nat, 12); (5%nat, 5); (8%nat, 14); (7%nat, 6);
   (6%nat, 8); (2%nat, 13); (13%nat, 6); (14%nat, 5); (0%nat, 15); (3%nat, 13); (9%nat, 11); (11%nat, 11)].
Definition rip_left_k : list N := [0; 1518500249; 1859775393; 2400959708; 2840853838].
Definition rip_right_k : list N := [1352829926; 1548603684; 1836072691; 2053994217; 0].
Definition rip_iv : list N := [1732584193; 4023233417; 2562383102; 271733878; 3285377520].

Definition rip_f (j : nat) (x y z : N) : N :=
  match j with
  | 0%nat => xor3 x y z
  | 1%nat => N.lor (N.land x y) (N.land (notw x) z)
  | 2%nat => N.lxor (N.lor x (notw y)) z
  | 3%nat => N.lor (N.land x z) (N.land y (notw z))
  | _ => N.lxor x (N.lor y (notw z))
  end.
(** [j]: the function and the constant of the group of sixteen rounds *)
Definition rip_round (f : N -> N -> N -> N) (k : N) (block : list N) (v : list N) (rs : nat * N) : list N :=
  match v with
  | [a; b; c; d; e] =>
      let t := addw (rotl (snd rs) (addw (a + f b c d) (at_ block (fst rs) + k))) e in
      [e; t; b; rotl 10 c; d]
  | _ => v
  end.
Definition rip_line (fs : list nat) (ks : list N) (rounds : list (nat * N)) (v block : list N) : list N :=
  fold_left (fun v (g : nat * (nat * N)) =>
               fold_left (rip_round (rip_f (fst (snd g))) (snd (snd g)) block) (firstn 16 (skipn (16 * fst g) rounds)) v)
            (combine [0; 1; 2; 3; 4]%nat (combine fs ks)) v.
Definition rip_block (v block : list N) : list N :=
  match v, rip_line [0; 1; 2; 3; 4]%nat rip_left_k rip_left v block,
        rip_line [4; 3; 2; 1; 0]%nat rip_right_k rip_right v block with
  | [h0; h1; h2; h3; h4], [a; b; c; d; e], [a'; b'; c'; d'; e'] =>
      [addw (h1 + c) d'; addw (h2 + d) e'; addw (h3 + e) a'; addw (h4 + a) b'; addw (h0 + b) c']
  | _, _, _ => v
  end.
Definition ripemd160_of (s : string) : string :=
  let l := octets s in
  let n := bit_length l in
  let words := le_words (padded (le4 (w32 n) ++ le4 (N.shiftr n 32)) l) in
  of_octets (flat_map le4 (fold_left rip_block (blocks (List.length words) words) rip_iv)).
