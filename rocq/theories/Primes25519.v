(** Primality of the two numbers of the curve of
    vendor/go.dedis.ch/kyber/v3/group/edwards25519: the characteristic of its
    field and the order of its base point.  Certificates for Pocklington's
    criterion, checked by computation. *)
From Coq Require Import ZArith Znumtheory List.
From Verif Require Import NumberTheory.
Import ListNotations.
Local Open Scope Z_scope.

(** edwards25519/const.go:12: [prime = 2^255 - 19] *)
Definition p25519 : Z := 57896044618658097711785492504343953926634992332820282019728792003956564819949.

(** edwards25519/const.go:15: [primeOrder = 2^252 + 277...493] *)
Definition l25519 : Z := 7237005577332262213973186563042994240857116359379907606001950938285454250989.

Lemma p25519_eq : p25519 = 2 ^ 255 - 19.
Proof. vm_compute. reflexivity. Qed.

Lemma l25519_eq : l25519 = 2 ^ 252 + 27742317777372353535851937790883648493.
Proof. vm_compute. reflexivity. Qed.

Ltac trial := apply trial_prime; vm_compute; reflexivity.

(** [certificate red qs]: the goal is the primality of a number, [red] reduces
    modulo it, and the first parts of [qs] are primes by the hypotheses at hand *)
Ltac certificate red qs :=
  apply (pocklington red _ qs);
  [ first [ apply barrett_keeps
          | apply fold_twice_keeps; [discriminate|vm_compute; reflexivity] ]
  | cbn [map fst]; repeat (constructor; [cbn [In]; intros F; repeat (destruct F as [F|F]; [discriminate F|]); exact F|]); constructor
  | cbn [map fst]; repeat (constructor; [assumption|]); constructor
  | vm_compute; reflexivity ].

Theorem p25519_prime : prime p25519.
Proof.
  assert (prime 991) by trial.
  assert (prime 103) by trial.
  assert (prime 8574133) by certificate (barrett 8574133 24 32828389) [(991, 3435729); (103, 4321357)].
  assert (prime 127) by trial.
  assert (prime 1919519569386763) by certificate (barrett 1919519569386763 51 2641599742863181) [(8574133, 1059928654987441); (127, 576774792492622)].
  assert (prime 419) by trial.
  assert (prime 97) by trial.
  assert (prime 569003) by certificate (barrett 569003 20 1932347) [(419, 236160); (97, 439588)].
  assert (prime 2773320623) by certificate (barrett 2773320623 32 6651500703) [(569003, 2039232613)].
  assert (prime 72106336199) by certificate (barrett 72106336199 37 261966796917) [(2773320623, 67108864)].
  assert (prime 75445702479781427272750846543864801) by certificate (barrett 75445702479781427272750846543864801 116 91479648541149864891604479769993730) [(1919519569386763, 56747016255153332959347766392083459); (72106336199, 71619851993489548214160924360205394)].
  assert (prime 1723) by trial.
  assert (prime 430751) by certificate (barrett 430751 19 638136) [(1723, 293176)].
  assert (prime 4153) by trial.
  assert (prime 31757755568855353) by certificate (barrett 31757755568855353 55 40874242885939986) [(430751, 15280470251845350); (4153, 28256283979054930)].
  assert (prime 353) by trial.
  assert (prime 74058212732561358302231226437062788676166966415465897661863160754340907) by certificate (barrett 74058212732561358302231226437062788676166966415465897661863160754340907 236 164658716767955881003422377988193863702697410721429750821230334084907008) [(75445702479781427272750846543864801, 69490809710348678725736597923071784769591275419387514694139338586948360); (353, 8562916886866218785688304546164188478888058893729309188831496247839076)].
  certificate (fold_twice p25519 255 (-19) 0) [(74058212732561358302231226437062788676166966415465897661863160754340907, 427094198651976259540344842774561673889945192655078505504941250475370961481)].
Qed.

Theorem l25519_prime : prime l25519.
Proof.
  assert (prime 2551) by trial.
  assert (prime 1224481) by certificate (barrett 1224481 21 3591763) [(2551, 921659)].
  assert (prime 3797) by trial.
  assert (prime 531581) by certificate (barrett 531581 20 2068380) [(3797, 32301)].
  assert (prime 1257559732178653) by certificate (barrett 1257559732178653 51 4032096664011639) [(1224481, 1252739704402215); (531581, 1139842034583224)].
  assert (prime 4434155615661930479) by certificate (barrett 4434155615661930479 62 4796324210507849031) [(1257559732178653, 415787812636281767)].
  assert (prime 172054593956031949258510691) by certificate (barrett 172054593956031949258510691 88 556689415271263271850175684) [(4434155615661930479, 81982237619807054769897707)].
  assert (prime 19757330305831588566944191468367130476339) by certificate (barrett 19757330305831588566944191468367130476339 134 24005490123129489549962785823870946901924) [(172054593956031949258510691, 9148758478138211201771971577098600188172)].
  assert (prime 276602624281642239937218680557139826668747) by certificate (barrett 276602624281642239937218680557139826668747 138 438957533680082094627890940779354457635181) [(19757330305831588566944191468367130476339, 16384)].
  certificate (fold_twice l25519 252 27742317777372353535851937790883648493 (2 ^ 127)) [(276602624281642239937218680557139826668747, 2975531125133123119648879457563281269120703404158613135195788908093573672641)].
Qed.

