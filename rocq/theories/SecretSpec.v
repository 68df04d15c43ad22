(** What somebody who sees published signatures can compute from them (C111, C112). *)
From Verif Require Import Base SignModel SignSpec.

Section Seen.
Variable C : Curve.

(** the challenges of a ring signature, the first one as published and each next one from
    the one before it, as Verify computes them *)
Fixpoint challenges (msg : bytes) (ring : list (Pt C)) (ss : list (Sc C)) (e : Sc C) : list (Sc C) :=
  match ring, ss with
  | p :: ring, s :: ss =>
      e :: challenges msg ring ss (create_hash C (msg ++ hex_encode (penc C (padd C (pmul C s (base C)) (pmul C e p)))))
  | _, _ => []
  end.
Definition challenge_at (msg : bytes) (g : ringsig C) (i : nat) : option (Sc C) :=
  nth_error (challenges msg (rs_ring g) (rs_s g) (rs_e g)) i.

(** from (s1, e1) and (s2, e2): (s1 - s2) / (e2 - e1) *)
Definition key_from (s1 e1 s2 e2 : Sc C) : Sc C := smul C (sinv C (ssub C e2 e1)) (ssub C s1 s2).
(** positions in two ring signatures on one message *)
Definition key_of_rings (msg : bytes) (g1 g2 : ringsig C) (i1 i2 : nat) : option (Sc C) :=
  match nth_error (rs_s g1) i1, challenge_at msg g1 i1, nth_error (rs_s g2) i2, challenge_at msg g2 i2 with
  | Some s1, Some e1, Some s2, Some e2 => Some (key_from s1 e1 s2 e2)
  | _, _, _, _ => None
  end.
(** a signature and a position in a ring signature, on one message *)
Definition key_of_both (msg : bytes) (g : sig C) (h : ringsig C) (i : nat) : option (Sc C) :=
  match nth_error (rs_s h) i, challenge_at msg h i with
  | Some s, Some e => Some (key_from (sg_s g) (create_hash C (msg ++ hex_encode (penc C (sg_r g)))) s e)
  | _, _ => None
  end.
(** position [j] in a ring signature on a message, and a signature on the message with the number [j] behind it: (k - s) / e *)
Definition key_of_number (msg : bytes) (j : nat) (h : ringsig C) (g : sig C) : option (Sc C) :=
  match nth_error (rs_s h) j with
  | Some k =>
      let e := create_hash C ((msg ++ itoa (Z.of_nat j)) ++ hex_encode (penc C (sg_r g))) in
      Some (smul C (sinv C e) (ssub C k (sg_s g)))
  | None => None
  end.

(** [i] is the first place of the key in the ring *)
Definition place (ring : list (Pt C)) (x : Sc C) (i : nat) : Prop :=
  nth_error ring i = Some (pmul C x (base C)) /\ forall j, j < i -> nth_error ring j <> Some (pmul C x (base C)).

(** what is needed of subtraction besides [CurveLaws] *)
Record ScalarLaws (red : Sc C -> Prop) (zero : Sc C) (sadd : Sc C -> Sc C -> Sc C) : Prop := {
  ssub_same : forall k a b, red k -> red a -> red b -> ssub C (ssub C k a) (ssub C k b) = ssub C b a;
  ssub_smul : forall a b x, red a -> red b -> red x -> ssub C (smul C a x) (smul C b x) = smul C (ssub C a b) x;
  ssub_zero : forall a b, red a -> red b -> ssub C a b = zero -> a = b;
  ssub_sadd : forall s a, red s -> red a -> red (sadd s a) /\ ssub C (sadd s a) a = s }.

(** the number behind a message, if any *)
Definition behind (o : option nat) : bytes := match o with Some i => itoa (Z.of_nat i) | None => [] end.
End Seen.
