(** The test vectors of the repository: entropy and phrase of each vector of
    bip39/src/test_vectors/bip39_english.txt and bip39_japanese.txt.  The
    Japanese phrases are given after Unicode normalisation NFKD, which the test
    applies first (bip39/src/bip39.rs:1039-1041).  The seeds are left out: each
    takes 2048 iterations of HMAC. *)
From Coq Require Import Strings.String.
From Verif Require Import Base.

(** Size and value of the entropy, the phrase. *)
Definition english_vectors : list (nat * N * str) :=
  [(16%nat, 0x00000000000000000000000000000000, lit "abandon abandon abandon abandon abandon abandon abandon abandon abandon abandon abandon about");
   (16%nat, 0x7f7f7f7f7f7f7f7f7f7f7f7f7f7f7f7f, lit "legal winner thank year wave sausage worth useful legal winner thank yellow");
   (16%nat, 0x80808080808080808080808080808080, lit "letter advice cage absurd amount doctor acoustic avoid letter advice cage above");
   (16%nat, 0xffffffffffffffffffffffffffffffff, lit "zoo zoo zoo zoo zoo zoo zoo zoo zoo zoo zoo wrong");
   (24%nat, 0x000000000000000000000000000000000000000000000000, lit "abandon abandon abandon abandon abandon abandon abandon abandon abandon abandon abandon abandon abandon abandon abandon abandon abandon agent");
   (24%nat, 0x7f7f7f7f7f7f7f7f7f7f7f7f7f7f7f7f7f7f7f7f7f7f7f7f, lit "legal winner thank year wave sausage worth useful legal winner thank year wave sausage worth useful legal will");
   (24%nat, 0x808080808080808080808080808080808080808080808080, lit "letter advice cage absurd amount doctor acoustic avoid letter advice cage absurd amount doctor acoustic avoid letter always");
   (24%nat, 0xffffffffffffffffffffffffffffffffffffffffffffffff, lit "zoo zoo zoo zoo zoo zoo zoo zoo zoo zoo zoo zoo zoo zoo zoo zoo zoo when");
   (32%nat, 0x0000000000000000000000000000000000000000000000000000000000000000, lit "abandon abandon abandon abandon abandon abandon abandon abandon abandon abandon abandon abandon abandon abandon abandon abandon abandon abandon abandon abandon abandon abandon abandon art");
   (32%nat, 0x7f7f7f7f7f7f7f7f7f7f7f7f7f7f7f7f7f7f7f7f7f7f7f7f7f7f7f7f7f7f7f7f, lit "legal winner thank year wave sausage worth useful legal winner thank year wave sausage worth useful legal winner thank year wave sausage worth title");
   (32%nat, 0x8080808080808080808080808080808080808080808080808080808080808080, lit "letter advice cage absurd amount doctor acoustic avoid letter advice cage absurd amount doctor acoustic avoid letter advice cage absurd amount doctor acoustic bless");
   (32%nat, 0xffffffffffffffffffffffffffffffffffffffffffffffffffffffffffffffff, lit "zoo zoo zoo zoo zoo zoo zoo zoo zoo zoo zoo zoo zoo zoo zoo zoo zoo zoo zoo zoo zoo zoo zoo vote");
   (16%nat, 0x9e885d952ad362caeb4efe34a8e91bd2, lit "ozone drill grab fiber curtain grace pudding thank cruise elder eight picnic");
   (24%nat, 0x6610b25967cdcca9d59875f5cb50b0ea75433311869e930b, lit "gravity machine north sort system female filter attitude volume fold club stay feature office ecology stable narrow fog");
   (32%nat, 0x68a79eaca2324873eacc50cb9c6eca8cc68ea5d936f98787c60c7ebc74e6ce7c, lit "hamster diagram private dutch cause delay private meat slide toddler razor book happy fancy gospel tennis maple dilemma loan word shrug inflict delay length");
   (16%nat, 0xc0ba5a8e914111210f2bd131f3d5e08d, lit "scheme spot photo card baby mountain device kick cradle pact join borrow");
   (24%nat, 0x6d9be1ee6ebd27a258115aad99b7317b9c8d28b6d76431c3, lit "horn tenant knee talent sponsor spell gate clip pulse soap slush warm silver nephew swap uncle crack brave");
   (32%nat, 0x9f6a2878b2520799a44ef18bc7df394e7061a224d2c33cd015b157d746869863, lit "panda eyebrow bullet gorilla call smoke muffin taste mesh discover soft ostrich alcohol speed nation flash devote level hobby quick inner drive ghost inside");
   (16%nat, 0x23db8160a31d3e0dca3688ed941adbf3, lit "cat swing flag economy stadium alone churn speed unique patch report train");
   (24%nat, 0x8197a4a47f0425faeaa69deebc05ca29c0a5b5cc76ceacc0, lit "light rule cinnamon wrap drastic word pride squirrel upgrade then income fatal apart sustain crack supply proud access");
   (32%nat, 0x066dca1a2bb7e8a1db2832148ce9933eea0f3ac9548d793112d9a95c9407efad, lit "all hour make first leader extend hole alien behind guard gospel lava path output census museum junior mass reopen famous sing advance salt reform");
   (16%nat, 0xf30f8c1da665478f49b001d94c5fc452, lit "vessel ladder alter error federal sibling chat ability sun glass valve picture");
   (24%nat, 0xc10ec20dc3cd9f652c7fac2f1230f7a3c828389a14392f05, lit "scissors invite lock maple supreme raw rapid void congress muscle digital elegant little brisk hair mango congress clump");
   (32%nat, 0xf585c11aec520db57dd353c69554b21a89b20fb0650966fa0a9d6f74fd989d8f, lit "void come effort suffer camp survey warrior heavy shoot primary clutch crush open amazing screen patrol group space point ten exist slush involve unfold")].
Definition japanese_vectors : list (nat * N * str) :=
  [(16%nat, 0x00000000000000000000000000000000,
    [0x3042; 0x3044; 0x3053; 0x304f; 0x3057; 0x3093; 0x20; 0x3042; 0x3044; 0x3053; 0x304f; 0x3057;
    0x3093; 0x20; 0x3042; 0x3044; 0x3053; 0x304f; 0x3057; 0x3093; 0x20; 0x3042; 0x3044; 0x3053;
    0x304f; 0x3057; 0x3093; 0x20; 0x3042; 0x3044; 0x3053; 0x304f; 0x3057; 0x3093; 0x20; 0x3042;
    0x3044; 0x3053; 0x304f; 0x3057; 0x3093; 0x20; 0x3042; 0x3044; 0x3053; 0x304f; 0x3057; 0x3093;
    0x20; 0x3042; 0x3044; 0x3053; 0x304f; 0x3057; 0x3093; 0x20; 0x3042; 0x3044; 0x3053; 0x304f;
    0x3057; 0x3093; 0x20; 0x3042; 0x3044; 0x3053; 0x304f; 0x3057; 0x3093; 0x20; 0x3042; 0x3044;
    0x3053; 0x304f; 0x3057; 0x3093; 0x20; 0x3042; 0x304a; 0x305d; 0x3099; 0x3089]);
   (16%nat, 0x7f7f7f7f7f7f7f7f7f7f7f7f7f7f7f7f,
    [0x305d; 0x3064; 0x3046; 0x20; 0x308c; 0x304d; 0x305f; 0x3099; 0x3044; 0x20; 0x307b; 0x3093;
    0x3084; 0x304f; 0x20; 0x308f; 0x304b; 0x3059; 0x20; 0x308a; 0x304f; 0x3064; 0x20; 0x306f;
    0x3099; 0x3044; 0x304b; 0x20; 0x308d; 0x305b; 0x3093; 0x20; 0x3084; 0x3061; 0x3093; 0x20;
    0x305d; 0x3064; 0x3046; 0x20; 0x308c; 0x304d; 0x305f; 0x3099; 0x3044; 0x20; 0x307b; 0x3093;
    0x3084; 0x304f; 0x20; 0x308f; 0x304b; 0x3081]);
   (16%nat, 0x80808080808080808080808080808080,
    [0x305d; 0x3068; 0x3064; 0x3099; 0x3089; 0x20; 0x3042; 0x307e; 0x3068; 0x3099; 0x20; 0x304a;
    0x304a; 0x3046; 0x20; 0x3042; 0x3053; 0x304b; 0x3099; 0x308c; 0x308b; 0x20; 0x3044; 0x304f;
    0x3075; 0x3099; 0x3093; 0x20; 0x3051; 0x3044; 0x3051; 0x3093; 0x20; 0x3042; 0x305f; 0x3048;
    0x308b; 0x20; 0x3044; 0x3088; 0x304f; 0x20; 0x305d; 0x3068; 0x3064; 0x3099; 0x3089; 0x20;
    0x3042; 0x307e; 0x3068; 0x3099; 0x20; 0x304a; 0x304a; 0x3046; 0x20; 0x3042; 0x304b; 0x3061;
    0x3083; 0x3093]);
   (16%nat, 0xffffffffffffffffffffffffffffffff,
    [0x308f; 0x308c; 0x308b; 0x20; 0x308f; 0x308c; 0x308b; 0x20; 0x308f; 0x308c; 0x308b; 0x20;
    0x308f; 0x308c; 0x308b; 0x20; 0x308f; 0x308c; 0x308b; 0x20; 0x308f; 0x308c; 0x308b; 0x20;
    0x308f; 0x308c; 0x308b; 0x20; 0x308f; 0x308c; 0x308b; 0x20; 0x308f; 0x308c; 0x308b; 0x20;
    0x308f; 0x308c; 0x308b; 0x20; 0x308f; 0x308c; 0x308b; 0x20; 0x308d; 0x3093; 0x3075; 0x3099;
    0x3093]);
   (24%nat, 0x000000000000000000000000000000000000000000000000,
    [0x3042; 0x3044; 0x3053; 0x304f; 0x3057; 0x3093; 0x20; 0x3042; 0x3044; 0x3053; 0x304f; 0x3057;
    0x3093; 0x20; 0x3042; 0x3044; 0x3053; 0x304f; 0x3057; 0x3093; 0x20; 0x3042; 0x3044; 0x3053;
    0x304f; 0x3057; 0x3093; 0x20; 0x3042; 0x3044; 0x3053; 0x304f; 0x3057; 0x3093; 0x20; 0x3042;
    0x3044; 0x3053; 0x304f; 0x3057; 0x3093; 0x20; 0x3042; 0x3044; 0x3053; 0x304f; 0x3057; 0x3093;
    0x20; 0x3042; 0x3044; 0x3053; 0x304f; 0x3057; 0x3093; 0x20; 0x3042; 0x3044; 0x3053; 0x304f;
    0x3057; 0x3093; 0x20; 0x3042; 0x3044; 0x3053; 0x304f; 0x3057; 0x3093; 0x20; 0x3042; 0x3044;
    0x3053; 0x304f; 0x3057; 0x3093; 0x20; 0x3042; 0x3044; 0x3053; 0x304f; 0x3057; 0x3093; 0x20;
    0x3042; 0x3044; 0x3053; 0x304f; 0x3057; 0x3093; 0x20; 0x3042; 0x3044; 0x3053; 0x304f; 0x3057;
    0x3093; 0x20; 0x3042; 0x3044; 0x3053; 0x304f; 0x3057; 0x3093; 0x20; 0x3042; 0x3044; 0x3053;
    0x304f; 0x3057; 0x3093; 0x20; 0x3042; 0x3044; 0x3053; 0x304f; 0x3057; 0x3093; 0x20; 0x3042;
    0x3089; 0x3044; 0x304f; 0x3099; 0x307e]);
   (24%nat, 0x7f7f7f7f7f7f7f7f7f7f7f7f7f7f7f7f7f7f7f7f7f7f7f7f,
    [0x305d; 0x3064; 0x3046; 0x20; 0x308c; 0x304d; 0x305f; 0x3099; 0x3044; 0x20; 0x307b; 0x3093;
    0x3084; 0x304f; 0x20; 0x308f; 0x304b; 0x3059; 0x20; 0x308a; 0x304f; 0x3064; 0x20; 0x306f;
    0x3099; 0x3044; 0x304b; 0x20; 0x308d; 0x305b; 0x3093; 0x20; 0x3084; 0x3061; 0x3093; 0x20;
    0x305d; 0x3064; 0x3046; 0x20; 0x308c; 0x304d; 0x305f; 0x3099; 0x3044; 0x20; 0x307b; 0x3093;
    0x3084; 0x304f; 0x20; 0x308f; 0x304b; 0x3059; 0x20; 0x308a; 0x304f; 0x3064; 0x20; 0x306f;
    0x3099; 0x3044; 0x304b; 0x20; 0x308d; 0x305b; 0x3093; 0x20; 0x3084; 0x3061; 0x3093; 0x20;
    0x305d; 0x3064; 0x3046; 0x20; 0x308c; 0x3044; 0x304d; 0x3099]);
   (24%nat, 0x808080808080808080808080808080808080808080808080,
    [0x305d; 0x3068; 0x3064; 0x3099; 0x3089; 0x20; 0x3042; 0x307e; 0x3068; 0x3099; 0x20; 0x304a;
    0x304a; 0x3046; 0x20; 0x3042; 0x3053; 0x304b; 0x3099; 0x308c; 0x308b; 0x20; 0x3044; 0x304f;
    0x3075; 0x3099; 0x3093; 0x20; 0x3051; 0x3044; 0x3051; 0x3093; 0x20; 0x3042; 0x305f; 0x3048;
    0x308b; 0x20; 0x3044; 0x3088; 0x304f; 0x20; 0x305d; 0x3068; 0x3064; 0x3099; 0x3089; 0x20;
    0x3042; 0x307e; 0x3068; 0x3099; 0x20; 0x304a; 0x304a; 0x3046; 0x20; 0x3042; 0x3053; 0x304b;
    0x3099; 0x308c; 0x308b; 0x20; 0x3044; 0x304f; 0x3075; 0x3099; 0x3093; 0x20; 0x3051; 0x3044;
    0x3051; 0x3093; 0x20; 0x3042; 0x305f; 0x3048; 0x308b; 0x20; 0x3044; 0x3088; 0x304f; 0x20;
    0x305d; 0x3068; 0x3064; 0x3099; 0x3089; 0x20; 0x3044; 0x304d; 0x306a; 0x308a]);
   (24%nat, 0xffffffffffffffffffffffffffffffffffffffffffffffff,
    [0x308f; 0x308c; 0x308b; 0x20; 0x308f; 0x308c; 0x308b; 0x20; 0x308f; 0x308c; 0x308b; 0x20;
    0x308f; 0x308c; 0x308b; 0x20; 0x308f; 0x308c; 0x308b; 0x20; 0x308f; 0x308c; 0x308b; 0x20;
    0x308f; 0x308c; 0x308b; 0x20; 0x308f; 0x308c; 0x308b; 0x20; 0x308f; 0x308c; 0x308b; 0x20;
    0x308f; 0x308c; 0x308b; 0x20; 0x308f; 0x308c; 0x308b; 0x20; 0x308f; 0x308c; 0x308b; 0x20;
    0x308f; 0x308c; 0x308b; 0x20; 0x308f; 0x308c; 0x308b; 0x20; 0x308f; 0x308c; 0x308b; 0x20;
    0x308f; 0x308c; 0x308b; 0x20; 0x308f; 0x308c; 0x308b; 0x20; 0x308a; 0x3093; 0x3053; 0x3099]);
   (32%nat, 0x0000000000000000000000000000000000000000000000000000000000000000,
    [0x3042; 0x3044; 0x3053; 0x304f; 0x3057; 0x3093; 0x20; 0x3042; 0x3044; 0x3053; 0x304f; 0x3057;
    0x3093; 0x20; 0x3042; 0x3044; 0x3053; 0x304f; 0x3057; 0x3093; 0x20; 0x3042; 0x3044; 0x3053;
    0x304f; 0x3057; 0x3093; 0x20; 0x3042; 0x3044; 0x3053; 0x304f; 0x3057; 0x3093; 0x20; 0x3042;
    0x3044; 0x3053; 0x304f; 0x3057; 0x3093; 0x20; 0x3042; 0x3044; 0x3053; 0x304f; 0x3057; 0x3093;
    0x20; 0x3042; 0x3044; 0x3053; 0x304f; 0x3057; 0x3093; 0x20; 0x3042; 0x3044; 0x3053; 0x304f;
    0x3057; 0x3093; 0x20; 0x3042; 0x3044; 0x3053; 0x304f; 0x3057; 0x3093; 0x20; 0x3042; 0x3044;
    0x3053; 0x304f; 0x3057; 0x3093; 0x20; 0x3042; 0x3044; 0x3053; 0x304f; 0x3057; 0x3093; 0x20;
    0x3042; 0x3044; 0x3053; 0x304f; 0x3057; 0x3093; 0x20; 0x3042; 0x3044; 0x3053; 0x304f; 0x3057;
    0x3093; 0x20; 0x3042; 0x3044; 0x3053; 0x304f; 0x3057; 0x3093; 0x20; 0x3042; 0x3044; 0x3053;
    0x304f; 0x3057; 0x3093; 0x20; 0x3042; 0x3044; 0x3053; 0x304f; 0x3057; 0x3093; 0x20; 0x3042;
    0x3044; 0x3053; 0x304f; 0x3057; 0x3093; 0x20; 0x3042; 0x3044; 0x3053; 0x304f; 0x3057; 0x3093;
    0x20; 0x3042; 0x3044; 0x3053; 0x304f; 0x3057; 0x3093; 0x20; 0x3042; 0x3044; 0x3053; 0x304f;
    0x3057; 0x3093; 0x20; 0x3042; 0x3044; 0x3053; 0x304f; 0x3057; 0x3093; 0x20; 0x3042; 0x3044;
    0x3053; 0x304f; 0x3057; 0x3093; 0x20; 0x3044; 0x3063; 0x3066; 0x3044]);
   (32%nat, 0x7f7f7f7f7f7f7f7f7f7f7f7f7f7f7f7f7f7f7f7f7f7f7f7f7f7f7f7f7f7f7f7f,
    [0x305d; 0x3064; 0x3046; 0x20; 0x308c; 0x304d; 0x305f; 0x3099; 0x3044; 0x20; 0x307b; 0x3093;
    0x3084; 0x304f; 0x20; 0x308f; 0x304b; 0x3059; 0x20; 0x308a; 0x304f; 0x3064; 0x20; 0x306f;
    0x3099; 0x3044; 0x304b; 0x20; 0x308d; 0x305b; 0x3093; 0x20; 0x3084; 0x3061; 0x3093; 0x20;
    0x305d; 0x3064; 0x3046; 0x20; 0x308c; 0x304d; 0x305f; 0x3099; 0x3044; 0x20; 0x307b; 0x3093;
    0x3084; 0x304f; 0x20; 0x308f; 0x304b; 0x3059; 0x20; 0x308a; 0x304f; 0x3064; 0x20; 0x306f;
    0x3099; 0x3044; 0x304b; 0x20; 0x308d; 0x305b; 0x3093; 0x20; 0x3084; 0x3061; 0x3093; 0x20;
    0x305d; 0x3064; 0x3046; 0x20; 0x308c; 0x304d; 0x305f; 0x3099; 0x3044; 0x20; 0x307b; 0x3093;
    0x3084; 0x304f; 0x20; 0x308f; 0x304b; 0x3059; 0x20; 0x308a; 0x304f; 0x3064; 0x20; 0x306f;
    0x3099; 0x3044; 0x304b; 0x20; 0x308d; 0x305b; 0x3093; 0x20; 0x307e; 0x3093; 0x304d; 0x3064]);
   (32%nat, 0x8080808080808080808080808080808080808080808080808080808080808080,
    [0x305d; 0x3068; 0x3064; 0x3099; 0x3089; 0x20; 0x3042; 0x307e; 0x3068; 0x3099; 0x20; 0x304a;
    0x304a; 0x3046; 0x20; 0x3042; 0x3053; 0x304b; 0x3099; 0x308c; 0x308b; 0x20; 0x3044; 0x304f;
    0x3075; 0x3099; 0x3093; 0x20; 0x3051; 0x3044; 0x3051; 0x3093; 0x20; 0x3042; 0x305f; 0x3048;
    0x308b; 0x20; 0x3044; 0x3088; 0x304f; 0x20; 0x305d; 0x3068; 0x3064; 0x3099; 0x3089; 0x20;
    0x3042; 0x307e; 0x3068; 0x3099; 0x20; 0x304a; 0x304a; 0x3046; 0x20; 0x3042; 0x3053; 0x304b;
    0x3099; 0x308c; 0x308b; 0x20; 0x3044; 0x304f; 0x3075; 0x3099; 0x3093; 0x20; 0x3051; 0x3044;
    0x3051; 0x3093; 0x20; 0x3042; 0x305f; 0x3048; 0x308b; 0x20; 0x3044; 0x3088; 0x304f; 0x20;
    0x305d; 0x3068; 0x3064; 0x3099; 0x3089; 0x20; 0x3042; 0x307e; 0x3068; 0x3099; 0x20; 0x304a;
    0x304a; 0x3046; 0x20; 0x3042; 0x3053; 0x304b; 0x3099; 0x308c; 0x308b; 0x20; 0x3044; 0x304f;
    0x3075; 0x3099; 0x3093; 0x20; 0x3051; 0x3044; 0x3051; 0x3093; 0x20; 0x3042; 0x305f; 0x3048;
    0x308b; 0x20; 0x3046; 0x3081; 0x308b]);
   (32%nat, 0xffffffffffffffffffffffffffffffffffffffffffffffffffffffffffffffff,
    [0x308f; 0x308c; 0x308b; 0x20; 0x308f; 0x308c; 0x308b; 0x20; 0x308f; 0x308c; 0x308b; 0x20;
    0x308f; 0x308c; 0x308b; 0x20; 0x308f; 0x308c; 0x308b; 0x20; 0x308f; 0x308c; 0x308b; 0x20;
    0x308f; 0x308c; 0x308b; 0x20; 0x308f; 0x308c; 0x308b; 0x20; 0x308f; 0x308c; 0x308b; 0x20;
    0x308f; 0x308c; 0x308b; 0x20; 0x308f; 0x308c; 0x308b; 0x20; 0x308f; 0x308c; 0x308b; 0x20;
    0x308f; 0x308c; 0x308b; 0x20; 0x308f; 0x308c; 0x308b; 0x20; 0x308f; 0x308c; 0x308b; 0x20;
    0x308f; 0x308c; 0x308b; 0x20; 0x308f; 0x308c; 0x308b; 0x20; 0x308f; 0x308c; 0x308b; 0x20;
    0x308f; 0x308c; 0x308b; 0x20; 0x308f; 0x308c; 0x308b; 0x20; 0x308f; 0x308c; 0x308b; 0x20;
    0x308f; 0x308c; 0x308b; 0x20; 0x308f; 0x308c; 0x308b; 0x20; 0x3089; 0x3044; 0x3046]);
   (16%nat, 0x77c2b00716cec7213839159e404db50d,
    [0x305b; 0x307e; 0x3044; 0x20; 0x3046; 0x3061; 0x304b; 0x3099; 0x308f; 0x20; 0x3042; 0x3059;
    0x3099; 0x304d; 0x20; 0x304b; 0x308d; 0x3046; 0x20; 0x3081; 0x3059; 0x3099; 0x3089; 0x3057;
    0x3044; 0x20; 0x305f; 0x3099; 0x3093; 0x3061; 0x20; 0x307e; 0x3059; 0x304f; 0x20; 0x304a;
    0x3055; 0x3081; 0x308b; 0x20; 0x3066; 0x3044; 0x307b; 0x3099; 0x3046; 0x20; 0x3042; 0x305f;
    0x308b; 0x20; 0x3059; 0x3042; 0x306a; 0x20; 0x3048; 0x3057; 0x3083; 0x304f]);
   (24%nat, 0xb63a9c59a6e641f288ebc103017f1da9f8290b3da6bdef7b,
    [0x306c; 0x3059; 0x3080; 0x20; 0x3075; 0x3063; 0x304b; 0x3064; 0x20; 0x3046; 0x3068; 0x3099;
    0x3093; 0x20; 0x3053; 0x3046; 0x308a; 0x3064; 0x20; 0x3057; 0x3064; 0x3057; 0x3099; 0x20;
    0x308a; 0x3087; 0x3046; 0x308a; 0x20; 0x304a; 0x305f; 0x304b; 0x3099; 0x3044; 0x20; 0x305b;
    0x3082; 0x305f; 0x308c; 0x20; 0x3042; 0x3064; 0x3081; 0x308b; 0x20; 0x3044; 0x3061; 0x308a;
    0x3085; 0x3046; 0x20; 0x306f; 0x3093; 0x3057; 0x3083; 0x20; 0x3053; 0x3099; 0x307e; 0x3059;
    0x308a; 0x20; 0x305d; 0x3093; 0x3051; 0x3044; 0x20; 0x305f; 0x3044; 0x3061; 0x3087; 0x3046;
    0x20; 0x3089; 0x3057; 0x3093; 0x306f; 0x3099; 0x3093; 0x20; 0x3075; 0x3099; 0x3093; 0x305b;
    0x304d; 0x20; 0x3084; 0x3059; 0x307f; 0x20; 0x307b; 0x3044; 0x304f]);
   (32%nat, 0x3e141609b97933b66a060dcddc71fad1d91677db872031e85f4c015c5e7e8982,
    [0x304f; 0x306e; 0x3046; 0x20; 0x3066; 0x306c; 0x304f; 0x3099; 0x3044; 0x20; 0x305d; 0x3093;
    0x304b; 0x3044; 0x20; 0x3059; 0x308d; 0x3063; 0x3068; 0x20; 0x3061; 0x304d; 0x3085; 0x3046;
    0x20; 0x307b; 0x3042; 0x3093; 0x20; 0x3068; 0x3055; 0x304b; 0x20; 0x306f; 0x304f; 0x3057;
    0x3085; 0x20; 0x3072; 0x3072; 0x3099; 0x304f; 0x20; 0x307f; 0x3048; 0x308b; 0x20; 0x305d;
    0x3055; 0x3099; 0x3044; 0x20; 0x3066; 0x3093; 0x3059; 0x3046; 0x20; 0x305f; 0x3093; 0x3072;
    0x309a; 0x3093; 0x20; 0x304f; 0x3057; 0x3087; 0x3046; 0x20; 0x3059; 0x3044; 0x3088; 0x3046;
    0x3072; 0x3099; 0x20; 0x307f; 0x3051; 0x3093; 0x20; 0x304d; 0x3055; 0x3089; 0x304d; 0x3099;
    0x20; 0x3051; 0x3099; 0x3055; 0x3099; 0x3093; 0x20; 0x3075; 0x304f; 0x3055; 0x3099; 0x3064;
    0x20; 0x3042; 0x3064; 0x304b; 0x3046; 0x20; 0x306f; 0x3084; 0x3044; 0x20; 0x304f; 0x308d;
    0x3046; 0x20; 0x304a; 0x3084; 0x3086; 0x3072; 0x3099; 0x20; 0x3053; 0x3059; 0x3046]);
   (16%nat, 0x0460ef47585604c5660618db2e6a7e7f,
    [0x3042; 0x307f; 0x3082; 0x306e; 0x20; 0x3044; 0x304d; 0x304a; 0x3044; 0x20; 0x3075; 0x3044;
    0x3046; 0x3061; 0x20; 0x306b; 0x3051; 0x3099; 0x308b; 0x20; 0x3055; 0x3099; 0x3093; 0x3057;
    0x3087; 0x20; 0x3057; 0x3099; 0x304b; 0x3093; 0x20; 0x3064; 0x3044; 0x304b; 0x20; 0x306f;
    0x305f; 0x3093; 0x20; 0x307b; 0x3042; 0x3093; 0x20; 0x3059; 0x3093; 0x307b; 0x309a; 0x3046;
    0x20; 0x3066; 0x3061; 0x304b; 0x3099; 0x3044; 0x20; 0x308f; 0x304b; 0x3081]);
   (24%nat, 0x72f60ebac5dd8add8d2a25a797102c3ce21bc029c200076f,
    [0x3059; 0x308d; 0x3063; 0x3068; 0x20; 0x306b; 0x304f; 0x3057; 0x307f; 0x20; 0x306a; 0x3084;
    0x3080; 0x20; 0x305f; 0x3068; 0x3048; 0x308b; 0x20; 0x3078; 0x3044; 0x3053; 0x3046; 0x20;
    0x3059; 0x304f; 0x3046; 0x20; 0x304d; 0x306a; 0x3044; 0x20; 0x3051; 0x3063; 0x3066; 0x3044;
    0x20; 0x3068; 0x304f; 0x3078; 0x3099; 0x3064; 0x20; 0x306d; 0x3063; 0x3057; 0x3093; 0x20;
    0x3044; 0x305f; 0x307f; 0x20; 0x305b; 0x3093; 0x305b; 0x3044; 0x20; 0x304a; 0x304f; 0x308a;
    0x304b; 0x3099; 0x306a; 0x20; 0x307e; 0x304b; 0x3044; 0x20; 0x3068; 0x304f; 0x3044; 0x20;
    0x3051; 0x3042; 0x306a; 0x20; 0x3044; 0x304d; 0x304a; 0x3044; 0x20; 0x305d; 0x305d; 0x304f;
    0x3099]);
   (32%nat, 0x2c85efc7f24ee4573d2b81a6ec66cee209b2dcbd09d8eddc51e0215b0b68e416,
    [0x304b; 0x307b; 0x3053; 0x3099; 0x20; 0x304d; 0x3046; 0x3044; 0x20; 0x3086; 0x305f; 0x304b;
    0x20; 0x307f; 0x3059; 0x3048; 0x308b; 0x20; 0x3082; 0x3089; 0x3046; 0x20; 0x304b; 0x3099;
    0x3063; 0x3053; 0x3046; 0x20; 0x3088; 0x305d; 0x3046; 0x20; 0x3059; 0x3099; 0x3063; 0x3068;
    0x20; 0x3068; 0x304d; 0x3068; 0x3099; 0x304d; 0x20; 0x3057; 0x305f; 0x3046; 0x3051; 0x20;
    0x306b; 0x3093; 0x304b; 0x20; 0x306f; 0x3063; 0x3053; 0x3046; 0x20; 0x3064; 0x307f; 0x304d;
    0x20; 0x3059; 0x3046; 0x3057; 0x3099; 0x3064; 0x20; 0x3088; 0x3051; 0x3044; 0x20; 0x304f;
    0x3051; 0x3099; 0x3093; 0x20; 0x3082; 0x304f; 0x3066; 0x304d; 0x20; 0x307e; 0x308f; 0x308a;
    0x20; 0x305b; 0x3081; 0x308b; 0x20; 0x3051; 0x3099; 0x3055; 0x3099; 0x3044; 0x20; 0x306b;
    0x3051; 0x3099; 0x308b; 0x20; 0x306b; 0x3093; 0x305f; 0x3044; 0x20; 0x305f; 0x3093; 0x305d;
    0x304f; 0x20; 0x307b; 0x305d; 0x304f]);
   (16%nat, 0xeaebabb2383351fd31d703840b32e9e2,
    [0x3081; 0x3044; 0x3048; 0x3093; 0x20; 0x3055; 0x306e; 0x3046; 0x20; 0x3081; 0x305f; 0x3099;
    0x3064; 0x20; 0x3059; 0x3066; 0x308b; 0x20; 0x304d; 0x306c; 0x3053; 0x3099; 0x3057; 0x20;
    0x308d; 0x3093; 0x306f; 0x309a; 0x20; 0x306f; 0x3093; 0x3053; 0x20; 0x307e; 0x3051; 0x308b;
    0x20; 0x305f; 0x3044; 0x304a; 0x3046; 0x20; 0x3055; 0x304b; 0x3044; 0x3057; 0x20; 0x306d;
    0x3093; 0x3044; 0x308a; 0x20; 0x306f; 0x3075; 0x3099; 0x3089; 0x3057]);
   (24%nat, 0x7ac45cfe7722ee6c7ba84fbc2d5bd61b45cb2fe5eb65aa78,
    [0x305b; 0x3093; 0x306f; 0x309a; 0x3044; 0x20; 0x304a; 0x3057; 0x3048; 0x308b; 0x20; 0x304f;
    0x3099; 0x3093; 0x304b; 0x3093; 0x20; 0x3082; 0x3089; 0x3046; 0x20; 0x304d; 0x3042; 0x3044;
    0x20; 0x304d; 0x307b; 0x3099; 0x3046; 0x20; 0x3084; 0x304a; 0x3084; 0x20; 0x3044; 0x305b;
    0x3048; 0x3072; 0x3099; 0x20; 0x306e; 0x3044; 0x3059; 0x3099; 0x20; 0x3057; 0x3099; 0x3085;
    0x3057; 0x3093; 0x20; 0x3088; 0x3086; 0x3046; 0x20; 0x304d; 0x307f; 0x3064; 0x20; 0x3055;
    0x3068; 0x3044; 0x3082; 0x20; 0x3061; 0x3093; 0x3082; 0x304f; 0x20; 0x3061; 0x308f; 0x308f;
    0x20; 0x3057; 0x3093; 0x305b; 0x3044; 0x3057; 0x3099; 0x20; 0x3068; 0x3081; 0x308b; 0x20;
    0x306f; 0x3061; 0x307f; 0x3064]);
   (32%nat, 0x4fa1a8bc3e6d80ee1316050e862c1812031493212b7ec3f3bb1b08f168cabeef,
    [0x3053; 0x3053; 0x308d; 0x20; 0x3044; 0x3068; 0x3099; 0x3046; 0x20; 0x304d; 0x3042; 0x3064;
    0x20; 0x305d; 0x3046; 0x304b; 0x3099; 0x3093; 0x304d; 0x3087; 0x3046; 0x20; 0x3078; 0x3044;
    0x3042; 0x3093; 0x20; 0x305b; 0x3064; 0x308a; 0x3064; 0x20; 0x3053; 0x3099; 0x3046; 0x305b;
    0x3044; 0x20; 0x306f; 0x3044; 0x3061; 0x20; 0x3044; 0x3072; 0x3099; 0x304d; 0x20; 0x304d;
    0x3053; 0x304f; 0x20; 0x3042; 0x3093; 0x3044; 0x20; 0x304a; 0x3061; 0x3064; 0x304f; 0x20;
    0x304d; 0x3053; 0x3048; 0x308b; 0x20; 0x3051; 0x3093; 0x3068; 0x3046; 0x20; 0x305f; 0x3044;
    0x3053; 0x20; 0x3059; 0x3059; 0x3081; 0x308b; 0x20; 0x306f; 0x3063; 0x3051; 0x3093; 0x20;
    0x3066; 0x3044; 0x3068; 0x3099; 0x20; 0x306f; 0x3093; 0x304a; 0x3093; 0x20; 0x3044; 0x3093;
    0x3055; 0x3064; 0x20; 0x3046; 0x306a; 0x304d; 0x3099; 0x20; 0x3057; 0x306d; 0x307e; 0x20;
    0x308c; 0x3044; 0x307b; 0x3099; 0x3046; 0x20; 0x307f; 0x3064; 0x304b; 0x308b]);
   (16%nat, 0x18ab19a9f54a9274f03e5209a2ac8a91,
    [0x3046; 0x308a; 0x304d; 0x308c; 0x20; 0x3055; 0x3044; 0x305b; 0x3044; 0x20; 0x3057; 0x3099;
    0x3086; 0x3046; 0x20; 0x3080; 0x308d; 0x3093; 0x20; 0x3068; 0x3068; 0x3099; 0x3051; 0x308b;
    0x20; 0x304f; 0x3099; 0x3046; 0x305f; 0x3089; 0x20; 0x306f; 0x3044; 0x308c; 0x3064; 0x20;
    0x3072; 0x3051; 0x3064; 0x20; 0x3044; 0x3059; 0x3099; 0x308c; 0x20; 0x3046; 0x3061; 0x3042;
    0x308f; 0x305b; 0x20; 0x304a; 0x3055; 0x3081; 0x308b; 0x20; 0x304a; 0x305f; 0x304f]);
   (24%nat, 0x18a2e1d81b8ecfb2a333adcb0c17a5b9eb76cc5d05db91a4,
    [0x3046; 0x308a; 0x304d; 0x308c; 0x20; 0x3046; 0x306d; 0x308b; 0x20; 0x305b; 0x3063; 0x3055;
    0x305f; 0x304f; 0x307e; 0x20; 0x304d; 0x3082; 0x3061; 0x20; 0x3081; 0x3093; 0x304d; 0x3087;
    0x20; 0x3078; 0x3044; 0x305f; 0x304f; 0x20; 0x305f; 0x307e; 0x3053; 0x3099; 0x20; 0x305b;
    0x3099; 0x3063; 0x304f; 0x20; 0x3072; 0x3099; 0x3057; 0x3099; 0x3085; 0x3064; 0x304b; 0x3093;
    0x20; 0x3055; 0x3093; 0x305d; 0x20; 0x3080; 0x305b; 0x308b; 0x20; 0x305b; 0x3044; 0x3057;
    0x3099; 0x20; 0x306d; 0x304f; 0x305f; 0x3044; 0x20; 0x3057; 0x306f; 0x3089; 0x3044; 0x20;
    0x305b; 0x304a; 0x3046; 0x20; 0x306d; 0x3093; 0x3068; 0x3099; 0x20; 0x305f; 0x3093; 0x307e;
    0x3064; 0x20; 0x304b; 0x3099; 0x3044; 0x3051; 0x3093]);
   (32%nat, 0x15da872c95a13dd738fbf50e427583ad61f18fd99f628c417a61cf8343c90419,
    [0x3046; 0x3061; 0x3085; 0x3046; 0x20; 0x3075; 0x305d; 0x304f; 0x20; 0x3072; 0x3057; 0x3087;
    0x20; 0x304b; 0x3099; 0x3061; 0x3087; 0x3046; 0x20; 0x3046; 0x3051; 0x3082; 0x3064; 0x20;
    0x3081; 0x3044; 0x305d; 0x3046; 0x20; 0x307f; 0x304b; 0x3093; 0x20; 0x305d; 0x3055; 0x3099;
    0x3044; 0x20; 0x3044; 0x306f; 0x3099; 0x308b; 0x20; 0x3046; 0x3051; 0x3068; 0x308b; 0x20;
    0x3055; 0x3093; 0x307e; 0x20; 0x3055; 0x3053; 0x3064; 0x20; 0x304a; 0x3046; 0x3055; 0x307e;
    0x20; 0x306f; 0x309a; 0x3093; 0x3064; 0x20; 0x3057; 0x3072; 0x3087; 0x3046; 0x20; 0x3081;
    0x3057; 0x305f; 0x20; 0x305f; 0x306f; 0x3064; 0x20; 0x3044; 0x3061; 0x3075; 0x3099; 0x20;
    0x3064; 0x3046; 0x3057; 0x3099; 0x3087; 0x3046; 0x20; 0x3066; 0x3055; 0x304d; 0x3099; 0x3087;
    0x3046; 0x20; 0x304d; 0x3064; 0x306d; 0x20; 0x307f; 0x3059; 0x3048; 0x308b; 0x20; 0x3044;
    0x308a; 0x304f; 0x3099; 0x3061; 0x20; 0x304b; 0x3081; 0x308c; 0x304a; 0x3093])].
