(** C34: the hash functions. *)
From Verif Require Import Base S_HashFn M_HashFn P_HashFn.

(** For every buffer, every size within it, every key and every number of
    rounds, GetSipHashKey is SipHash-c-d of the bytes, and reads nothing else. *)
Theorem C34_siphash b size k1 k2 c d :
  size <= length b -> byteList b -> (k1 < 2 ^ 64)%N -> (k2 < 2 ^ 64)%N ->
  get_siphash b size k1 k2 c d = Ok (siphash c d k1 k2 (firstn size b)).
Proof. apply siphash_ok. Qed.

(** GetDJBX33XHashKey (and the sized CacheUtil::GetHashKey, initial value 5381). *)
Theorem C34_djb b size init :
  size <= length b -> byteList b -> get_djb b size init = Ok (djb_words init (firstn size b)).
Proof. apply djb_ok. Qed.

(** CacheUtil::GetHashKey(char * ) on the NUL-terminated string [m]. *)
Theorem C34_djb_string m post :
  byteList m -> ~ In 0%N m -> get_djb_str (m ++ 0%N :: post) 5381 = Ok (djb_chars m).
Proof.
  intros H N. apply djb_str_ok; auto. apply Forall_forall. intros x Hx ->. auto.
Qed.

Print Assumptions C34_siphash.
Print Assumptions C34_djb.
Print Assumptions C34_djb_string.

(** The test vector of the SipHash paper, appendix A: key 00..0f, message 00..0e. *)
Example C34_paper_vector :
  get_siphash (map N.of_nat (seq 0 15)) 15 0x0706050403020100 0x0f0e0d0c0b0a0908 2 4 = Ok 0xa129ca6149be45e5%N.
Proof. vm_compute. reflexivity. Qed.
Example C34_reads_past_end : get_siphash (map N.of_nat (seq 0 15)) 16 1 2 2 4 = UB.
Proof. vm_compute. reflexivity. Qed.
Example C34_djb_example : get_djb [1; 2; 3; 4; 5; 6; 7]%N 7 5381 = Ok (djb_words 5381 [1; 2; 3; 4; 5; 6; 7]%N)
  /\ djb_words 5381 [1; 2; 3; 4; 5; 6; 7]%N = N.lxor (33 * N.lxor (33 * N.lxor (33 * N.lxor (33 * 5381) 0x04030201) 7 mod 2 ^ 32) 6 mod 2 ^ 32) 5.
Proof. vm_compute. split; reflexivity. Qed.
Example C34_djb_string_example : get_djb_str [97; 0]%N 5381 = Ok 177604%N /\ get_djb_str [200; 0; 1]%N 5381 = Ok 18446744073709374061%N.
Proof. vm_compute. split; reflexivity. Qed.
