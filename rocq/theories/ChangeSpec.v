(** What somebody without any private key can do with a published ring signature (C115). *)
From Verif Require Import Base SignModel SignSpec.

Section Changed.
Variable C : Curve.
(** the ring begins one place later: the first key and its scalar move to the end, and the
    challenge of the second place, which everybody can compute, is published *)
Definition turned (msg : bytes) (g : ringsig C) : ringsig C :=
  match rs_ring g, rs_s g with
  | p :: ring, s :: ss =>
      RingSig (ring ++ [p]) (ss ++ [s]) (create_hash C (msg ++ hex_encode (penc C (padd C (pmul C s (base C)) (pmul C (rs_e g) p)))))
  | _, _ => g
  end.
(** more scalars than there are keys *)
Definition longer (g : ringsig C) (more : list (Sc C)) : ringsig C := RingSig (rs_ring g) (rs_s g ++ more) (rs_e g).

(** the texts whose hashes Verify computes, one for each place *)
Fixpoint hashed (msg : bytes) (ring : list (Pt C)) (ss : list (Sc C)) (e : Sc C) : list bytes :=
  match ring, ss with
  | p :: ring, s :: ss =>
      let input := msg ++ hex_encode (penc C (padd C (pmul C s (base C)) (pmul C e p))) in
      input :: hashed msg ring ss (create_hash C input)
  | _, _ => []
  end.
(** at some place two signatures hash two texts to one challenge *)
Definition collide (msg : bytes) (g1 g2 : ringsig C) : Prop :=
  exists j u v, nth_error (hashed msg (rs_ring g1) (rs_s g1) (rs_e g1)) j = Some u /\
    nth_error (hashed msg (rs_ring g2) (rs_s g2) (rs_e g2)) j = Some v /\ challenge_collision C u v.
(** a key that somebody can have a private key for, other than zero *)
Definition owned (red : Sc C -> Prop) (zero : Sc C) (p : Pt C) : Prop := exists x, red x /\ x <> zero /\ pmul C x (base C) = p.
End Changed.
