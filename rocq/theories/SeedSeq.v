(** generate_keys (index_shuffle.cc:61-67): std::seed_seq seq{seed};
    seq.generate(rk.begin(), rk.end()), transcribed from the C++ standard
    ([rand.util.seedseq]), for a single seed word and [rounds] outputs.
    Used to instantiate the arbitrary [gen_keys] of the theorems in concrete
    examples. *)
From Verif Require Import Base MapDatasets.

Definition u32 (x : Z) : Z := x mod 2 ^ 32.
Definition ss_t (x : Z) : Z := Z.lxor x (Z.shiftr x 27).

Section Gen.
  Context (seed n : Z).
  Let t := if n >=? 623 then 11 else if n >=? 68 then 7 else if n >=? 39 then 5
           else if n >=? 7 then 3 else (n - 1) / 2.
  Let p := (n - t) / 2.
  Let q := p + t.
  Let s := 1.
  Let m := Z.max (s + 1) n.
  Let at_ (x : list Z) (i : Z) : Z := nth (Z.to_nat (i mod n)) x 0.
  Let upd (x : list Z) (i v : Z) : list Z := update_nth (Z.to_nat (i mod n)) v x.

  Definition ss_step1 (x : list Z) (k : Z) : list Z :=
    let r1 := u32 (1664525 * ss_t (Z.lxor (Z.lxor (at_ x k) (at_ x (k + p))) (at_ x (k - 1)))) in
    let r2 := u32 (r1 + (if k =? 0 then s else if k <=? s then k mod n + seed else k mod n)) in
    let x := upd x (k + p) (u32 (at_ x (k + p) + r1)) in
    let x := upd x (k + q) (u32 (at_ x (k + q) + r2)) in
    upd x k r2.

  Definition ss_step2 (x : list Z) (k : Z) : list Z :=
    let r3 := u32 (1566083941 * ss_t (u32 (at_ x k + at_ x (k + p) + at_ x (k - 1)))) in
    let r4 := u32 (r3 - k mod n) in
    let x := upd x (k + p) (Z.lxor (at_ x (k + p)) r3) in
    let x := upd x (k + q) (Z.lxor (at_ x (k + q)) r4) in
    upd x k r4.

  Definition ss_generate : list Z :=
    let x := List.repeat 2341178251 (Z.to_nat n) in (* 0x8b8b8b8b *)
    let x := fold_left ss_step1 (zrange 0 (Z.to_nat m)) x in
    fold_left ss_step2 (zrange m (Z.to_nat n)) x.
End Gen.

Definition generate_keys (seed rounds : Z) : list Z := ss_generate seed rounds.

(** Values printed by a C++ program calling std::seed_seq (libstdc++). *)
Example generate_keys_42_4 : generate_keys 42 4 = [735521182; 3707395978; 3290902861; 980519533].
Proof. vm_compute. reflexivity. Qed.
Example generate_keys_max_8 : generate_keys 4294967295 8 =
  [430145308; 2797324639; 1290077591; 3162004185; 4202657598; 3275963129; 1006707735; 593906588].
Proof. vm_compute. reflexivity. Qed.
Example generate_keys_0_40 : firstn 9 (generate_keys 0 40) =
  [1576545530; 2266427575; 3302258627; 3166680679; 3485419940; 94281428; 3752992230; 1592261117; 3150680262].
Proof. vm_compute. reflexivity. Qed.
