(** Model of the C++ index shuffle
    (grain/_src/python/experimental/index_shuffle/index_shuffle.cc and
     .../python/index_shuffle_module.cc). *)
From Verif Require Import Base.

(** std::bitset<W>: a W-bit word, as an integer in [0, 2^W).
    [bitset_of W v] is the constructor from an unsigned integer (drops high
    bits).  index_shuffle.cc:77-78. *)
Definition bitset_of (W v : Z) : Z := v mod 2 ^ W.

(** ROTL(x, r, W), index_shuffle.cc:52, on bitset<W> (the left shift drops the
    bits that leave the word). *)
Definition rotl (x r W : Z) : Z := Z.lor (bitset_of W (Z.shiftl x r)) (Z.shiftr x (W - r)).

(** SIMON_F(x, W), index_shuffle.cc:54 ('&' binds tighter than '^'). *)
Definition simon_f (x W : Z) : Z := Z.lxor (Z.land (rotl x 1 W) (rotl x 8 W)) (rotl x 2 W).

(** SIMON_Rx2(x, y, k1, k2, W), index_shuffle.cc:55-56, called with x = right and
    y = left (line 80): returns (left, right). *)
Definition simon_rx2 (left right k1 k2 W : Z) : Z * Z :=
  let y := Z.lxor (Z.lxor left (simon_f right W)) (bitset_of W k1) in
  let x := Z.lxor (Z.lxor right (simon_f y W)) (bitset_of W k2) in
  (y, x).

(** The loop of index_shuffle.cc:79-81.  An odd number of keys would read past
    the end of the vector; the module only lets even numbers through. *)
Fixpoint simon_rounds (W : Z) (keys : list Z) (lr : Z * Z) : Z * Z :=
  match keys with
  | k1 :: k2 :: ks => simon_rounds W ks (simon_rx2 (fst lr) (snd lr) k1 k2 W)
  | _ => lr
  end.

(** simon_encrypt<W>, index_shuffle.cc:72-83. *)
Definition simon_encrypt (W : Z) (value : Z) (keys : list Z) : Z :=
  let left := bitset_of W (Z.shiftr value W) in
  let right := bitset_of W value in
  let lr := simon_rounds W keys (left, right) in
  Z.lor (Z.shiftl (fst lr) W) (snd lr).

(** The [while (true)] loop of index_shuffle.cc:94-100 as an iteration of at most
    2^d steps ([inl y]: returned y; [inr x]: not finished, new_index = x). *)
Fixpoint walk (E : Z -> Z) (max_index : Z) (d : nat) (x : Z) : Z + Z :=
  match d with
  | O => let y := E x in if y <=? max_index then inl y else inr y
  | S d' => match walk E max_index d' x with
            | inl y => inl y
            | inr x' => walk E max_index d' x'
            end
  end.

(** log2 of the fuel given to the loop: 2^65 steps (never exhausted, see
    IndexShuffle_proofs). *)
Definition walk_fuel : nat := 65.

(** impl::index_shuffle<B>, index_shuffle.cc:90-101, with the fuel 2^65 for the
    loop; [keys] is the result of generate_keys(seed, rounds). *)
Definition index_shuffle_impl (B index max_index : Z) (keys : list Z) : res Z :=
  match walk (fun v => simon_encrypt (B / 2) v keys) max_index walk_fuel index with
  | inl y => Ok y
  | inr _ => OutOfFuel
  end.

(** Block size, index_shuffle.cc:118-119 and the default branch at 154-155.
    [std::ceil(std::log2(max_index))] is modelled by the exact integer
    ceil(log2); the C++ code computes it in double precision, which agrees for
    max_index < 2^48. *)
Definition block_size (max_index : Z) : Z :=
  let b := Z.log2_up max_index in
  let bs := Z.max (b + b mod 2) 16 in
  if bs <=? 62 then bs else 64.

(** index_shuffle, index_shuffle.cc:110-158. *)
Definition index_shuffle_cc (index max_index : Z) (keys : list Z) : res Z :=
  if max_index =? 0 then Ok 0
  else index_shuffle_impl (block_size max_index) index max_index keys.

(** The Python binding, index_shuffle_module.cc:17-30.  [gen_keys seed rounds]
    stands for generate_keys (std::seed_seq), an arbitrary function.  The first
    test is pybind11's argument conversion: a seed that is not a uint32_t is
    rejected with TypeError before the body runs (index, max_index and rounds
    are assumed to be convertible). *)
Definition index_shuffle (gen_keys : Z -> Z -> list Z)
    (index max_index seed rounds : Z) : res Z :=
  if (seed <? 0) || (seed >=? 2 ^ 32) then Raise TypeError
  else if (rounds <? 4) || negb (rounds mod 2 =? 0) || (rounds >? 1024) then Raise ValueError
  else if (index <? 0) || (index >? max_index) then Raise ValueError
  else index_shuffle_cc index max_index (gen_keys seed rounds).
