(** Model of libs/cryptography/pk/signature.

    The curve (kyber's edwards25519 suite) is a record of operations; what the
    proofs need of it is in SignSpec.v.  A point is identified with its encoding
    (projective coordinates are not modelled).  Public keys wrap a point
    (publickey.go:7-22) and private keys a scalar (privatekey.go:10-20); both are
    represented by what they wrap. *)
From Verif Require Import Base HashModel.

Record Curve := mkCurve {
  Sc : Type;                      (* kyber.Scalar *)
  Pt : Type;                      (* kyber.Point *)
  base : Pt;                      (* Point().Base() *)
  pmul : Sc -> Pt -> Pt;          (* Point().Mul *)
  padd : Pt -> Pt -> Pt;          (* Point().Add *)
  psub : Pt -> Pt -> Pt;          (* Point().Sub *)
  peqb : Pt -> Pt -> bool;        (* Point.Equal *)
  penc : Pt -> bytes;             (* Point.MarshalBinary *)
  pdec : bytes -> option Pt;      (* Point.UnmarshalBinary *)
  ssub : Sc -> Sc -> Sc;          (* Scalar().Sub *)
  smul : Sc -> Sc -> Sc;          (* Scalar().Mul *)
  sinv : Sc -> Sc;                (* Scalar().Div(Scalar().One(), e) *)
  seqb : Sc -> Sc -> bool;        (* Scalar.Equal *)
  senc : Sc -> bytes;             (* Scalar.MarshalBinary *)
  sdec : bytes -> option Sc;      (* Scalar.UnmarshalFrom *)
  sofb : bytes -> Sc;             (* Scalar().SetBytes *)
  sha256 : bytes -> bytes         (* curve.Hash() *)
}.

Section Sign.
  Variable C : Curve.
  Notation S := (Sc C).
  Notation P := (Pt C).

  (** [Point.String] / publickey.go:30-32, [Scalar.String] / privatekey.go:108-110:
      hexadecimal of the encoding *)
  Definition pstr (p : P) : bytes := hex_encode (penc C p).
  Definition sstr (s : S) : bytes := hex_encode (senc C s).

  (** helper.go:10-16 createHash *)
  Definition create_hash (msg : bytes) : S := sofb C (sha256 C msg).
  (** helper.go:18-20 genK *)
  Definition gen_k (x : S) (msg : bytes) : S := create_hash (msg ++ sstr x).

  Definition of_opt {A} (o : option A) : res A := match o with Some a => Ok a | None => Err end.
  (** helper.go:22-36 fromStringToScalar, privatekey_adapter.go:12-19 ToPrivateKey *)
  Definition scalar_of_string (s : bytes) : res S := let! b := hex_decode s in of_opt (sdec C b).
  (** helper.go:38-51 fromStringToPoint, publickey_adapter.go:12-19 ToPublicKey *)
  Definition point_of_string (s : bytes) : res P := let! b := hex_decode s in of_opt (pdec C b).

  (** privatekey.go:23-27 PublicKey *)
  Definition public_key (x : S) : P := pmul C x (base C).

  (** ** Ring signatures *)

  (** ringsignature.go:10-14 *)
  Record ringsig := RingSig { rs_ring : list P; rs_s : list S; rs_e : S }.

  (** privatekey.go:32-41: index of the first equal key, [None] for -1 *)
  Fixpoint signer_index (ring : list P) (pk : P) : option nat :=
    match ring with
    | [] => None
    | q :: ring => if peqb C q pk then Some 0 else option_map Datatypes.S (signer_index ring pk)
    end.

  (** slices of interfaces: [None] is a nil element *)
  Fixpoint upd {A} (i : nat) (v : A) (l : list A) : list A :=
    match l, i with
    | [], _ => []
    | _ :: l, O => v :: l
    | a :: l, Datatypes.S i => a :: upd i v l
    end.

  (** privatekey.go:71-74 (and ringsignature.go:42-45): H(m || s * G + e * P) *)
  Definition link (msg : bytes) (s e : S) (p : P) : S :=
    create_hash (msg ++ pstr (padd C (pmul C s (base C)) (pmul C e p))).

  (** privatekey.go:67-76, the loop; [fuel] bounds the iterations and running out
      of it is reported as [Panic] (it never happens with fuel [r]), as is the use
      of a nil element *)
  Fixpoint ring_loop (fuel i signer r : nat) (x : S) (msg : bytes) (ring : list P)
      (es ss : list (option S)) : res (list (option S) * list (option S)) :=
    if Nat.eqb i signer then Ok (es, ss)
    else match fuel with
         | O => Panic
         | Datatypes.S fuel =>
             let s := gen_k x (msg ++ itoa (Z.of_nat i)) in
             match nth_error ring i, nth i es None with
             | Some p, Some e =>
                 let next := (i + 1) mod r in
                 ring_loop fuel next signer r x msg ring
                   (upd next (Some (link msg s e p)) es) (upd i (Some s) ss)
             | _, _ => Panic
             end
         end.

  Fixpoint all_some {A} (l : list (option A)) : res (list A) :=
    match l with
    | [] => Ok []
    | Some a :: l => let! r := all_some l in Ok (a :: r)
    | None :: _ => Panic
    end.

  (** privatekey.go:30-83 RingSign.  A nil element left in [ss] would be a panic of
      the later uses; it is reported here. *)
  Definition ring_sign (x : S) (msg : bytes) (ring : list P) : res ringsig :=
    match signer_index ring (public_key x) with
    | None => Err
    | Some signer =>
        let k := gen_k x msg in
        let r := length ring in
        let es := repeat None r in
        let ss := repeat None r in
        let begin := (signer + 1) mod r in
        let es := upd begin (Some (create_hash (msg ++ pstr (pmul C k (base C))))) es in
        let! (es, ss) := ring_loop r begin signer r x msg ring es ss in
        match nth signer es None with
        | None => Panic
        | Some e =>
            let ss := upd signer (Some (ssub C k (smul C e x))) ss in
            match nth 0 es None with
            | None => Panic
            | Some e0 => let! ss := all_some ss in Ok (RingSig ring ss e0)
            end
        end
    end.

  (** ringsignature.go:41-46, the loop from index [i]; fewer scalars than keys is an
      index panic *)
  Fixpoint ring_fold (msg : bytes) (ring : list P) (ss : list S) (e : S) : res S :=
    match ring, ss with
    | [], _ => Ok e
    | _ :: _, [] => Panic
    | p :: ring, s :: ss => ring_fold msg ring ss (link msg s e p)
    end.
  (** ringsignature.go:32-49 Verify *)
  Definition ring_verify (sig : ringsig) (msg : bytes) : res bool :=
    let! e := ring_fold msg (rs_ring sig) (rs_s sig) (rs_e sig) in
    Ok (seqb C (rs_e sig) e).

  Definition hashsep : byte := x23. (* "#", sdk.go:27 *)
  Definition barsep : byte := x7c.  (* "|", sdk.go:28 *)

  (** ringsignature.go:52-65 String *)
  Definition ring_string (sig : ringsig) : bytes :=
    b64_encode (concat (map (fun p => pstr p ++ [barsep]) (rs_ring sig)) ++ [hashsep] ++
                concat (map (fun s => sstr s ++ [barsep]) (rs_s sig)) ++ [hashsep] ++
                sstr (rs_e sig)).

  (** ringsignature_adapter.go:38-52 and 54-67: elements, the empty ones skipped *)
  Fixpoint elements {A} (dec : bytes -> res A) (l : list bytes) : res (list A) :=
    match l with
    | [] => Ok []
    | [] :: l => elements dec l
    | w :: l => let! a := dec w in let! r := elements dec l in Ok (a :: r)
    end.

  (** ringsignature_adapter.go:26-75 ToSignature *)
  Definition ring_of_string (s : bytes) : res ringsig :=
    let! d := b64_decode s in
    match split hashsep d with
    | [a; b; c] =>
        let! ring := elements point_of_string (split barsep a) in
        let! ss := elements scalar_of_string (split barsep b) in
        let! e := scalar_of_string c in
        Ok (RingSig ring ss e)
    | _ => Err
    end.

  (** ringsignature_adapter.go:89-100 *)
  Fixpoint compare_keys (ring : list P) (hs : list hash) : res bool :=
    match ring, hs with
    | [], _ => Ok true
    | _ :: _, [] => Panic
    | p :: ring, h :: hs =>
        let! hp := FromString (pstr p) in
        if compare hp h then compare_keys ring hs else Err
    end.
  (** ringsignature_adapter.go:78-103 ToVerification (the false results come with an error) *)
  Definition to_verification (sig : ringsig) (msg : bytes) (hs : list hash) : res bool :=
    let! v := ring_verify sig msg in
    if negb v then Err
    else if negb (Nat.eqb (length hs) (length (rs_ring sig))) then Err
    else compare_keys (rs_ring sig) hs.

  (** ** Plain signatures *)

  (** signature.go:13-16 *)
  Record sig := Sig { sg_r : P; sg_s : S }.

  (** signature.go:28-40 PublicKey *)
  Definition sig_public_key (g : sig) (msg : bytes) : P :=
    let e := create_hash (msg ++ pstr (sg_r g)) in
    pmul C (sinv C e) (psub C (sg_r g) (pmul C (sg_s g) (base C))).

  (** signature.go:43-65 Verify; [rnd] is the value drawn by rand.Int *)
  Definition sig_verify (rnd : Z) (g : sig) : bool :=
    let msg := itoa rnd in
    let p := sig_public_key g msg in
    let e := create_hash (msg ++ pstr (sg_r g)) in
    peqb C (pmul C (sg_s g) (base C)) (psub C (sg_r g) (pmul C e p)).

  (** signature.go:18-25 createSignature *)
  Definition create_signature (rnd : Z) (r : P) (s : S) : res sig :=
    if sig_verify rnd (Sig r s) then Ok (Sig r s) else Err.

  (** privatekey.go:86-105 Sign *)
  Definition sign (rnd : Z) (x : S) (msg : bytes) : res sig :=
    let k := gen_k x msg in
    let r := pmul C k (base C) in
    let e := create_hash (msg ++ pstr r) in
    create_signature rnd r (ssub C k (smul C e x)).

  (** signature.go:68-71 String *)
  Definition sig_string (g : sig) : bytes :=
    b64_encode (pstr (sg_r g) ++ [hashsep] ++ sstr (sg_s g)).

  (** adapter.go:19-43 ToSignature *)
  Definition sig_of_string (rnd : Z) (s : bytes) : res sig :=
    let! d := b64_decode s in
    match split hashsep d with
    | [a; b] =>
        let! p := point_of_string a in
        let! s := scalar_of_string b in
        create_signature rnd p s
    | _ => Err
    end.
End Sign.

Arguments RingSig {C}. Arguments rs_ring {C}. Arguments rs_s {C}. Arguments rs_e {C}.
Arguments Sig {C}. Arguments sg_r {C}. Arguments sg_s {C}.
