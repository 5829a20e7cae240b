(** The functions rsasl takes from the crates sha1 0.10, sha2 0.10, hmac 0.12 and pbkdf2 0.12
    (Cargo.toml:119-125, used in scram/tools.rs and scram/client.rs), as FIPS 180-4, RFC 2104 and
    RFC 8018 define them. The sources of these crates are not available; that the crates compute
    these functions is part of the trusted base. The rest of the model does not depend on this
    file: it takes the functions as parameters. *)
From Verif Require Import Bytes Types World.
Local Open Scope N_scope.

(** * Words *)

(** Words of [n] bits are numbers below [2 ^ n]. *)
Definition mask (n : N) (x : N) : N := N.land x (N.ones n).
Definition add2 (n x y : N) : N := mask n (x + y).
(** FIPS 180-4 section 3.2: ROTL, ROTR and SHR; the complement of a word. *)
Definition rotl (n k x : N) : N := N.lor (mask n (N.shiftl x k)) (N.shiftr x (n - k)).
Definition rotr (n k x : N) : N := N.lor (N.shiftr x k) (mask n (N.shiftl x (n - k))).
Definition not_ (n x : N) : N := N.lxor x (N.ones n).

(** FIPS 180-4 section 4.1. *)
Definition ch (n x y z : N) : N := N.lxor (N.land x y) (N.land (not_ n x) z).
Definition maj (x y z : N) : N := N.lxor (N.lxor (N.land x y) (N.land x z)) (N.land y z).
Definition parity (x y z : N) : N := N.lxor (N.lxor x y) z.

(** Big-endian bytes of a word of [k] bytes, and back. *)
Fixpoint word_bytes (k : nat) (x : N) : bytes :=
  match k with
  | O => []
  | S k => word_bytes k (N.shiftr x 8) ++ [ascii_of_N (mask 8 x)]
  end.
Definition bytes_word (b : bytes) : N :=
  fold_left (fun x c => N.lor (N.shiftl x 8) (N_of_ascii c)) b 0.

(** Pieces of [k] elements; a shorter rest is dropped ([fuel] at least the number of pieces). *)
Fixpoint chunks {A} (fuel k : nat) (l : list A) : list (list A) :=
  match fuel with
  | O => []
  | S fuel =>
      if Nat.ltb (length l) k then [] else firstn k l :: chunks fuel k (skipn k l)
  end.

(** * Padding and iteration, FIPS 180-4 sections 5.1, 5.2 and 6 *)

(** The block is [bs] bytes long, the length is written in [ls] bytes. *)
Definition padding (bs ls : nat) (len : nat) : bytes :=
  let used := ((len + 1 + ls) mod bs)%nat in
  chr 128 :: repeat zero ((bs - used) mod bs)%nat ++ word_bytes ls (8 * N.of_nat len).

Definition blocks (bs : nat) (m : bytes) : list bytes := chunks (length m) bs m.
Definition block_words (k : nat) (b : bytes) : list N := map bytes_word (chunks 16 k b).

(** * SHA-1, FIPS 180-4 sections 5.3.1 and 6.1 *)

Definition state5 : Type := N * N * N * N * N.

Definition sha1_init : state5 := (1732584193, 4023233417, 2562383102, 271733878, 3285377520).

(** The words are kept with the latest first. *)
Fixpoint sha1_expand (n : nat) (w : list N) : list N :=
  match n with
  | O => w
  | S n =>
      sha1_expand n
        (rotl 32 1 (N.lxor (N.lxor (nth 2 w 0) (nth 7 w 0)) (N.lxor (nth 13 w 0) (nth 15 w 0))) :: w)
  end.

Definition sha1_round (f : N -> N -> N -> N) (k : N) (s : state5) (w : N) : state5 :=
  let '(a, b, c, d, e) := s in
  (mask 32 (rotl 32 5 a + f b c d + e + k + w), a, rotl 32 30 b, c, d).

Definition sha1_compress (s : state5) (block : bytes) : state5 :=
  let w := rev (sha1_expand 64 (rev (block_words 4 block))) in
  let '(a, b, c, d, e) := s in
  let s1 := fold_left (sha1_round (ch 32) 1518500249) (firstn 20 w) s in
  let s2 := fold_left (sha1_round parity 1859775393) (firstn 20 (skipn 20 w)) s1 in
  let s3 := fold_left (sha1_round maj 2400959708) (firstn 20 (skipn 40 w)) s2 in
  let '(a', b', c', d', e') := fold_left (sha1_round parity 3395469782) (firstn 20 (skipn 60 w)) s3 in
  (add2 32 a a', add2 32 b b', add2 32 c c', add2 32 d d', add2 32 e e').

Definition sha1 (m : bytes) : bytes :=
  let '(a, b, c, d, e) := fold_left sha1_compress (blocks 64 (m ++ padding 64 8 (length m))) sha1_init in
  concat (map (word_bytes 4) [a; b; c; d; e]).

(** * SHA-2, FIPS 180-4 sections 4.1.2, 4.1.3, 4.2.2, 4.2.3, 5.3.3, 5.3.5, 6.2 and 6.4 *)

Definition state8 : Type := N * N * N * N * N * N * N * N.

(** The two members of the family that are used: word size in bits and bytes, and the rotation
    and shift distances. *)
Record sha2_family := mk_sha2 {
  f_bits : N; f_bytes : nat;
  f_big0 : N * N * N; f_big1 : N * N * N;
  f_small0 : N * N * N; f_small1 : N * N * N;
  f_k : list N; f_init : state8 }.

Definition big_sigma (n : N) (d : N * N * N) (x : N) : N :=
  let '(i, j, k) := d in N.lxor (N.lxor (rotr n i x) (rotr n j x)) (rotr n k x).
Definition small_sigma (n : N) (d : N * N * N) (x : N) : N :=
  let '(i, j, k) := d in N.lxor (N.lxor (rotr n i x) (rotr n j x)) (N.shiftr x k).

Fixpoint sha2_expand (f : sha2_family) (n : nat) (w : list N) : list N :=
  match n with
  | O => w
  | S n =>
      sha2_expand f n
        (mask (f_bits f)
           (small_sigma (f_bits f) (f_small1 f) (nth 1 w 0) + nth 6 w 0 +
            small_sigma (f_bits f) (f_small0 f) (nth 14 w 0) + nth 15 w 0) :: w)
  end.

Definition sha2_round (f : sha2_family) (s : state8) (kw : N * N) : state8 :=
  let '(a, b, c, d, e, g, h, i) := s in
  let n := f_bits f in
  let t1 := i + big_sigma n (f_big1 f) e + ch n e g h + fst kw + snd kw in
  let t2 := big_sigma n (f_big0 f) a + maj a b c in
  (mask n (t1 + t2), a, b, c, mask n (d + t1), e, g, h).

Definition sha2_compress (f : sha2_family) (s : state8) (block : bytes) : state8 :=
  let w := rev (sha2_expand f (length (f_k f) - 16) (rev (block_words (f_bytes f) block))) in
  let '(a, b, c, d, e, g, h, i) := s in
  let '(a', b', c', d', e', g', h', i') := fold_left (sha2_round f) (combine (f_k f) w) s in
  let n := f_bits f in
  (add2 n a a', add2 n b b', add2 n c c', add2 n d d', add2 n e e', add2 n g g', add2 n h h', add2 n i i').

Definition sha2 (f : sha2_family) (m : bytes) : bytes :=
  let bs := (16 * f_bytes f)%nat in
  let '(a, b, c, d, e, g, h, i) :=
    fold_left (sha2_compress f) (blocks bs (m ++ padding bs (2 * f_bytes f) (length m))) (f_init f) in
  concat (map (word_bytes (f_bytes f)) [a; b; c; d; e; g; h; i]).

Definition sha256_family : sha2_family :=
  mk_sha2 32 4 (2, 13, 22) (6, 11, 25) (7, 18, 3) (17, 19, 10)
  [1116352408; 1899447441; 3049323471; 3921009573; 961987163; 1508970993;
   2453635748; 2870763221; 3624381080; 310598401; 607225278; 1426881987;
   1925078388; 2162078206; 2614888103; 3248222580; 3835390401; 4022224774;
   264347078; 604807628; 770255983; 1249150122; 1555081692; 1996064986;
   2554220882; 2821834349; 2952996808; 3210313671; 3336571891; 3584528711;
   113926993; 338241895; 666307205; 773529912; 1294757372; 1396182291;
   1695183700; 1986661051; 2177026350; 2456956037; 2730485921; 2820302411;
   3259730800; 3345764771; 3516065817; 3600352804; 4094571909; 275423344;
   430227734; 506948616; 659060556; 883997877; 958139571; 1322822218;
   1537002063; 1747873779; 1955562222; 2024104815; 2227730452; 2361852424;
   2428436474; 2756734187; 3204031479; 3329325298]%N
  (1779033703, 3144134277, 1013904242, 2773480762,
   1359893119, 2600822924, 528734635, 1541459225).

Definition sha512_family : sha2_family :=
  mk_sha2 64 8 (28, 34, 39) (14, 18, 41) (1, 8, 7) (19, 61, 6)
  [4794697086780616226; 8158064640168781261; 13096744586834688815;
   16840607885511220156; 4131703408338449720; 6480981068601479193;
   10538285296894168987; 12329834152419229976; 15566598209576043074;
   1334009975649890238; 2608012711638119052; 6128411473006802146;
   8268148722764581231; 9286055187155687089; 11230858885718282805;
   13951009754708518548; 16472876342353939154; 17275323862435702243;
   1135362057144423861; 2597628984639134821; 3308224258029322869;
   5365058923640841347; 6679025012923562964; 8573033837759648693;
   10970295158949994411; 12119686244451234320; 12683024718118986047;
   13788192230050041572; 14330467153632333762; 15395433587784984357;
   489312712824947311; 1452737877330783856; 2861767655752347644;
   3322285676063803686; 5560940570517711597; 5996557281743188959;
   7280758554555802590; 8532644243296465576; 9350256976987008742;
   10552545826968843579; 11727347734174303076; 12113106623233404929;
   14000437183269869457; 14369950271660146224; 15101387698204529176;
   15463397548674623760; 17586052441742319658; 1182934255886127544;
   1847814050463011016; 2177327727835720531; 2830643537854262169;
   3796741975233480872; 4115178125766777443; 5681478168544905931;
   6601373596472566643; 7507060721942968483; 8399075790359081724;
   8693463985226723168; 9568029438360202098; 10144078919501101548;
   10430055236837252648; 11840083180663258601; 13761210420658862357;
   14299343276471374635; 14566680578165727644; 15097957966210449927;
   16922976911328602910; 17689382322260857208; 500013540394364858;
   748580250866718886; 1242879168328830382; 1977374033974150939;
   2944078676154940804; 3659926193048069267; 4368137639120453308;
   4836135668995329356; 5532061633213252278; 6448918945643986474;
   6902733635092675308; 7801388544844847127]%N
  (7640891576956012808, 13503953896175478587, 4354685564936845355, 11912009170470909681,
   5840696475078001361, 11170449401992604703, 2270897969802886507, 6620516959819538809).

(** * What rsasl uses *)

(** The digest of the mechanism: Sha1, Sha256 and Sha512. *)
Definition hash (a : alg) (m : bytes) : bytes :=
  match a with
  | SHA1 => sha1 m
  | SHA256 => sha2 sha256_family m
  | SHA512 => sha2 sha512_family m
  end.

(** Block size of the digest in bytes. *)
Definition block_size (a : alg) : nat :=
  match a with SHA1 | SHA256 => 64 | SHA512 => 128 end.

(** SimpleHmac, RFC 2104 section 2: the key is hashed if it is longer than a block, and filled up
    with zeros. *)
Definition hmac_key (a : alg) (k : bytes) : bytes :=
  let k := if Nat.ltb (block_size a) (length k) then hash a k else k in
  k ++ repeat zero (block_size a - length k).
Definition hmac (a : alg) (k m : bytes) : bytes :=
  let k := hmac_key a k in
  hash a (map (xorb8 (chr 92)) k ++ hash a (map (xorb8 (chr 54)) k ++ m)).

(** pbkdf2::pbkdf2 with the output size of the digest, so that only the first block is
    computed: the first round takes the salt and the block number, the others the output of the
    one before (at least one round). scram/tools.rs:19-24 hash_password. *)
Definition pbkdf2_round (a : alg) (p : bytes) (s : bytes * bytes) : bytes * bytes :=
  let u := hmac a p (fst s) in (u, xor_zip (snd s) u).
Definition pbkdf2 (a : alg) (p salt : bytes) (rounds : N) : bytes :=
  let u := hmac a p (salt ++ word_bytes 4 1) in
  snd (N.iter (rounds - 1) (pbkdf2_round a p) (u, u)).

(** An environment with these functions. *)
Definition with_crypto (e : env) : env :=
  mk_env (e_sd e) (e_cb e) (e_vcb e) (e_vtag e) (e_chan e) (e_rng e) hash hmac pbkdf2
    (e_saslprep e) (e_json_to e) (e_json_from e) (e_gss_name e) (e_gss_cred e) (e_gss_step e)
    (e_gss_complete e) (e_gss_flags e) (e_gss_wrap e) (e_gss_unwrap e).
