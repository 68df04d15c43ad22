(** What the signature theorems assume of the curve, and an instance showing that
    the assumptions can be met. *)
From Verif Require Import Base SignModel.

(** The laws are restricted to reduced scalars (as produced by every computation;
    only decoding can produce others) and to multiples of the base point, where
    edwards25519 is a group of prime order. *)
Record CurveLaws (C : Curve) (red : Sc C -> Prop) (zero : Sc C) (sadd : Sc C -> Sc C -> Sc C) : Prop := {
  peqb_eq : forall p q, peqb C p q = true <-> p = q;
  seqb_eq : forall s t, seqb C s t = true <-> s = t;
  penc_len : forall p, length (penc C p) = 32;
  senc_len : forall s, length (senc C s) = 32;
  pdec_penc : forall p, pdec C (penc C p) = Some p;
  sdec_senc : forall s, red s -> sdec C (senc C s) = Some s;
  red_sub : forall a b, red (ssub C a b);
  red_mul : forall a b, red (smul C a b);
  red_inv : forall a, red (sinv C a);
  red_ofb : forall b, red (sofb C b);
  pmul_mul : forall a b, red a -> red b ->
    pmul C a (pmul C b (base C)) = pmul C (smul C a b) (base C);
  padd_base : forall a b, red a -> red b ->
    padd C (pmul C a (base C)) (pmul C b (base C)) = pmul C (sadd a b) (base C);
  psub_base : forall a b, red a -> red b ->
    psub C (pmul C a (base C)) (pmul C b (base C)) = pmul C (ssub C a b) (base C);
  sadd_ssub : forall k a, red k -> red a -> sadd (ssub C k a) a = k;
  ssub_ssub : forall k a, red k -> red a -> ssub C k (ssub C k a) = a;
  sinv_mul : forall e x, red e -> red x -> e <> zero -> smul C (sinv C e) (smul C e x) = x;
  smul_inv : forall e x, red e -> red x -> e <> zero -> smul C e (smul C (sinv C e) x) = x
}.

(** An explicit pair of different texts with the same challenge. *)
Definition challenge_collision (C : Curve) (x y : bytes) : Prop :=
  x <> y /\ create_hash C x = create_hash C y.

(** The text hashed in the last step of verifying a ring signature. *)
Fixpoint last_input (C : Curve) (msg : bytes) (ring : list (Pt C)) (ss : list (Sc C)) (e : Sc C) : bytes :=
  match ring, ss with
  | p :: ring, s :: ss =>
      let input := msg ++ hex_encode (penc C (padd C (pmul C s (base C)) (pmul C e p))) in
      match ring with
      | [] => input
      | _ => last_input C msg ring ss (create_hash C input)
      end
  | _, _ => []
  end.
