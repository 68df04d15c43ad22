(** C101: what a new private key is. *)
From Coq Require Import ZArith.
From Verif Require Import Base Sha256 SignModel Primes25519 Edwards25519Model Ed25519Curve CurveSpec KeygenModel KeygenSpec KeygenProofs Blake2Spec Blake2Proofs.
Local Open Scope Z_scope.

(** Create draws 32 bytes at a time.  The key is the number of the first draw that is accepted,
    as 32 bytes. *)
Theorem C101_create : forall reads k, private_key_create reads = Some (Ok k) <->
  exists bad d rest, reads = map Some bad ++ Some d :: rest /\ wasted bad /\ accepted d /\
    length k = 32%nat /\ le_val k = number_in (output d).
Proof. exact create_key. Qed.
Print Assumptions C101_create.
(** The output is that of BLAKE2Xb as its standards define it, keyed with the SHA-256 of what was
    drawn. *)
Theorem C101_output : forall d out, blake2xb (sha_256 d) 32 out <-> out = output d.
Proof. exact output_blake. Qed.
Print Assumptions C101_output.
Theorem C101_read : forall key n out, (length key <= 64)%nat -> (blake2xb key n out <-> out = xof_read key n).
Proof. exact xof_read_blake. Qed.
Print Assumptions C101_read.
(** It panics exactly when crypto/rand fails before a draw was accepted. *)
Theorem C101_panic : forall reads, private_key_create reads = Some Panic <->
  exists bad rest, reads = map Some bad ++ None :: rest /\ wasted bad.
Proof. exact create_panic. Qed.
Print Assumptions C101_panic.
(** It goes on for as long as every draw is thrown away, and gives no error. *)
Theorem C101_waits : forall reads, private_key_create reads = None <-> exists bad, reads = map Some bad /\ wasted bad.
Proof. exact create_waits. Qed.
Print Assumptions C101_waits.
Theorem C101_no_err : forall reads, private_key_create reads <> Some Err.
Proof. exact create_no_err. Qed.
Print Assumptions C101_no_err.
(** Each number comes from eight of the 2^256 outputs, so that no key is preferred; and more
    than half of the numbers are accepted. *)
Theorem C101_even : forall t n, length t = 32%nat -> 0 <= n < 2 ^ 253 ->
  (number_in t = n <-> exists j, 0 <= j < 8 /\ t = rev (le_bytes 32 (n + j * 2 ^ 253))).
Proof. exact number_outputs. Qed.
Print Assumptions C101_even.
Theorem C101_half : 2 ^ 252 < l25519 - 1 < 2 ^ 253.
Proof. exact more_than_half. Qed.
Print Assumptions C101_half.
(** A created key is one of those the theorems on signatures ask for, and it is not zero. *)
Theorem C101_generated : forall reads k, private_key_create reads = Some (Ok k) -> generated k /\ 0 < le_val k.
Proof. exact create_generated. Qed.
Print Assumptions C101_generated.
Theorem C101_not_null : forall reads k, private_key_create reads = Some (Ok k) -> public_key ed25519 k <> point_null.
Proof. exact create_not_null. Qed.
Print Assumptions C101_not_null.
Theorem C101_signs : forall reads k msg ring, private_key_create reads = Some (Ok k) -> In (public_key ed25519 k) ring ->
  exists sig, ring_sign ed25519 k msg ring = Ok sig /\ ring_verify ed25519 sig msg = Ok true.
Proof. exact create_signs. Qed.
Print Assumptions C101_signs.
(** Two creations that give the same public key gave the same private key, and a draw of one
    led to the same number as a draw of the other. *)
Theorem C101_distinct : forall reads reads' k k', private_key_create reads = Some (Ok k) -> private_key_create reads' = Some (Ok k') ->
  public_key ed25519 k = public_key ed25519 k' ->
  k = k' /\ exists d d', In (Some d) reads /\ In (Some d') reads' /\ number_in (output d) = number_in (output d').
Proof. exact create_twice. Qed.
Print Assumptions C101_distinct.

(** the first draw is thrown away, the second gives the key *)
Definition first_draw : bytes := repeat (n2b 1) 32.
Definition second_draw : bytes := repeat (n2b 2) 32.
Definition second_number : Z := 1790176624652860629025484418578558994788670940109150479699601318881082275858.
Example C101_case : ~ accepted first_draw /\ accepted second_draw /\
  private_key_create [Some first_draw; Some second_draw] = Some (Ok (le_bytes 32 second_number)) /\
  private_key_create [Some first_draw; None; Some second_draw] = Some Panic /\
  private_key_create [Some first_draw] = None.
Proof.
  assert (A : ~ accepted first_draw) by (unfold accepted; vm_compute; intros [_ H]; discriminate H).
  assert (V : number_in (output second_draw) = second_number) by (vm_compute; reflexivity).
  assert (B : accepted second_draw) by (unfold accepted; rewrite V; split; reflexivity).
  assert (W : wasted [first_draw]) by (constructor; [exact A|constructor]).
  split; [exact A|]. split; [exact B|]. split; [|split].
  - apply C101_create. exists [first_draw], second_draw, []. rewrite V. split; [reflexivity|]. split; [exact W|]. split; [exact B|]. split; vm_compute; reflexivity.
  - apply C101_panic. exists [first_draw], [Some second_draw]. split; [reflexivity|exact W].
  - apply C101_waits. exists [first_draw]. split; [reflexivity|exact W].
Qed.
