(** The Boolean functions of discretehelpers/boolf/examples, made by the constructor, and what the Conf_Boolf files share (see Conf_Base).
    Not transcribed: babeku (arity 8), and the sets of fullspots as separate names. *)
From Coq Require Import String List Arith ZArith Bool.
From Verif Require Import Model_Base Model_Binary Model_SigPerm Model_SetPart Model_SetPartComp Model_Boolf Model_Splits Model_Blight Model_MinRep Conf_Base.
Import ListNotations.
Local Open Scope string_scope.
Local Open Scope nat_scope.
Local Open Scope list_scope.

Definition zl (l : list nat) : list Z := map Z.of_nat l.
Definition zb (s : string) : list Z := map (fun b : bool => if b then 1%Z else 0%Z) (bv s).
Definition none_given := mkArgs None None None None None None None None None None None false.
(* Boolf('...'), Boolf('...', [...]), Boolf('...', skip_deflation=True) *)
Definition bf (s : string) : res boolf := Boolf 1 (mkArgs (Some (TtVector (zb s))) None None None None None None None None None None false).
Definition bfa (s : string) (av : list nat) : res boolf := Boolf 1 (mkArgs (Some (TtVector (zb s))) (Some (zl av)) None None None None None None None None None false).
Definition bfi (s : string) : res boolf := Boolf 1 (mkArgs (Some (TtVector (zb s))) None None None None None None None None None None true).
Definition bfai (s : string) (av : list nat) : res boolf := Boolf 1 (mkArgs (Some (TtVector (zb s))) (Some (zl av)) None None None None None None None None None true).
(* Boolf(n, arity=a) *)
Definition bfn (n a : nat) : res boolf := Boolf 1 (mkArgs (Some (TtInt (Z.of_nat n))) None None (Some a) None None None None None None None false).
(* Boolf(fullspots=..., arity=...), Boolf(fullspots=..., atomvals=...) *)
Definition bfs (l : list nat) (a : nat) : res boolf := Boolf 1 (mkArgs None None None (Some a) (Some (zl l)) None None None None None None false).
Definition bfsa (l av : list nat) : res boolf := Boolf 1 (mkArgs None (Some (zl av)) None None (Some (zl l)) None None None None None None false).
(* Boolf(atom=z), Boolf(zhe=z), Boolf(walsh_spectrum=w) *)
Definition batom (z : Z) : res boolf := Boolf 1 (mkArgs None None (Some z) None None None None None None None None false).
Definition bzhe (z : Z) : res boolf := Boolf 1 (mkArgs None None None None None None None None None (Some z) None false).
Definition bws (w : list Z) : res boolf := Boolf 1 (mkArgs None None None None None None None None None None (Some w) false).
(* Boolf(multi_and=...) etc. *)
Definition mand (l : list mu_entry) : res boolf := Boolf 1 (mkArgs None None None None None (Some l) None None None None None false).
Definition mor (l : list mu_entry) : res boolf := Boolf 1 (mkArgs None None None None None None (Some l) None None None None false).
Definition mxor (l : list mu_entry) : res boolf := Boolf 1 (mkArgs None None None None None None None (Some l) None None None false).
Definition mxand (l : list mu_entry) : res boolf := Boolf 1 (mkArgs None None None None None None None None (Some l) None None false).
Definition ints (l : list Z) : list mu_entry := map MuInt l.
(* == *)
Definition beq (a b : res boolf) : res bool := let* a := a in let* b := b in Ok (boolf_eqb a b).
Definition band (a b : res boolf) : res boolf := let* a := a in let* b := b in boolf_and a b.
Definition bor (a b : res boolf) : res boolf := let* a := a in let* b := b in boolf_or a b.
Definition bxor (a b : res boolf) : res boolf := let* a := a in let* b := b in boolf_xor a b.
Definition bnot (a : res boolf) : res boolf := let* a := a in boolf_not a.
(* f.attribute, f.method(...) *)
Definition of {A} (f : res boolf) (m : boolf -> res A) : res A := let* f := f in m f.
Definition nsame (l m : list nat) : bool := forallb (fun x => memb x m) l && forallb (fun x => memb x l) m && Nat.eqb (length l) (length m).
Definition allok (l : list (res bool)) : Prop := Forall (fun r => r = Ok true) l.
Ltac oks := cbv zeta; unfold allok; repeat apply Forall_cons; try apply Forall_nil; vm_compute; reflexivity.
Ltac both := cbv zeta; repeat match goal with |- _ /\ _ => split end; first [oks | tests].

Definition menose := bf "0110 0000".
Definition seduki := bfa "1111 1010 1100 1000" [0; 2; 3; 5].
Definition sedofu := bfa "1111 1000 1000 1000" [1; 2; 4; 5].
Definition sediri := bfsa [0; 1; 2; 3; 4; 6; 8; 9; 12; 16; 17; 20; 24; 25; 28] [0; 2; 3; 4; 5].
Definition tokosi := bfa "0001 0010 0000 0000  0000 0000 1000 1100" [1; 3; 5; 7; 9].
Definition rudafi := bfsa [4; 6; 9; 17] [0; 1; 2; 3; 4].
Definition rigeko := bfsa [4; 6; 11; 17] [0; 1; 2; 3; 4].
Definition megomi := bfsa [3; 4; 6; 12; 17] [0; 1; 2; 3; 4].
Definition demole := bfsa [4; 6; 12; 17] [0; 1; 2; 3; 4].
Definition _frame_ab := bfa "1000" [2; 3].
Definition _frame_c := bfa "0010 0000" [0; 1; 3].
Definition _frame_d := bfa "1000 0000" [0; 1; 2].
Definition miniri := bfs [0; 1; 2; 3; 4; 5; 6; 7; 8; 10; 12; 14; 16; 17; 24] 5.
Definition medusa := bf "1111 1111 1110 1010".
Definition tabora := bf "0110 0011".
Definition netuno := bf "1010 1011 0010 0011".
Definition samara := bf "0101 0110 0000 0010".
Definition savona := bf "0100 0000 0110 1010".
Definition fatale := bf "1111 1101 1011 0000".
Definition dolore := bf "1111 1011 1101 0000".
Definition palato := bf "0101 0001 0100 1111".
Definition minase := bf "1001 0000".
Definition taroka := bf "1010 1001".
Definition rotovo := bf "0001 0000 0001 1111".
Definition karate := bfs [1; 2; 4; 6; 7; 8; 9; 19; 27; 28; 29; 30; 31] 5.
Definition rakete := bfs [1; 2; 4; 5; 7; 8; 10; 19; 27; 28; 29; 30; 31] 5.
Definition patata := bf "0110 1101 1010 0000".
Definition pamera := bf "1111 1100 1010 0000".
Definition pesari := bf "1110 0001 0111 1000".
Definition dakete := bf "1110 1100 1010 1100".
Definition tatago := bf "1110 1100".
Definition rutavo := bf "1101 0011 1100 1000".
Definition rutoga := bf "1110 0011 1100 0100".
Definition rafemo := bf "0111 0100 1010 0000".
Definition kisegi := bf "1111 0001 0010 1111".
Definition dosale := bf "0011 0111 1110 1100".
Definition ketibi := bf "1110 0000 0000 0111".
Definition ketago := bf "1100 1000 0001 0011".
Definition sopuki := bf "1111 1111 1000 0001".
Definition vidute := bfs [0; 1; 2; 3; 4; 5; 6; 8; 9; 10; 16; 17; 18] 5.
Definition gudeba := bf "0000 0101 0101 1101".
Definition faradi := bf "1101 0000 0000 0000".
Definition toledo := bfs [13; 14; 15; 19; 22; 23; 25; 27] 5.
Definition tamara := bfs [13; 14; 15; 19; 21; 23; 26; 27] 5.
Definition teresa := bfs [7; 13; 15; 22; 23; 25; 26; 27] 5.
Definition novara := bfs [11; 14; 15; 19; 21; 23; 27; 28] 5.
Definition nabuco := bfs [11; 13; 15; 19; 22; 23; 27; 28] 5.
Definition neruda := bfs [7; 11; 15; 21; 23; 26; 27; 28] 5.
Definition somali := bfs [13; 14; 15; 19; 22; 23; 25; 27; 29; 30] 5.
Definition serena := bfs [7; 14; 15; 19; 23; 25; 27; 28; 29; 30] 5.
Definition sibila := bfs [7; 14; 15; 21; 23; 25; 26; 27; 29; 30] 5.
Definition barogi := bf "1111 1111 1010 1010".
Definition bareto := bfs [2; 3; 4; 5; 10; 12] 4.
Definition _b_nor_c := bfa "1000" [1; 2].
Definition _e_nor_f := bfa "1000" [4; 5].
Definition _a_nand_d := bfa "1110" [0; 3].
Definition _ade := bfa "1110 0010" [0; 3; 4].
Definition _fgh := bfa "1000 0000" [5; 6; 7].
Definition _fh := bfa "1110" [5; 7].
Definition _a_nand_c := bfa "1110" [0; 2].
Definition _b_nand_d := bfa "1110" [1; 3].
Definition dukeli := bf "1111 1010 1000 1000".
Definition dobipi := bf "1101 0100".
Definition givero := bf "0101 0011".
Definition dukove := bfs [0; 1; 2; 3; 4; 5; 8; 10] 4.
Definition badugo := bfs [0; 1; 2; 3; 5; 7; 8; 9; 13] 4.
Definition godogi := bfs [0; 1; 2; 5; 6; 7; 8; 10; 12; 14] 4.
Definition bavori := bf "1110 1000".
Definition t9_grid_boolf_abcd := bfa "1011 1000 0000 1000" [0; 1; 2; 3].
Definition t9_grid_boolf_abd := bfa "1011 1000" [0; 1; 3].
Definition t9_grid_boolf_efgh := bfa "1101 0001 0000 0001" [4; 5; 6; 7].
Definition gilera := bf "1000 0111".
Definition geloba := bf "1000 1111".
Definition fusuma := bf "1111 0100".
Definition potero := bf "1101 0001".
Definition kukobo := bf "0110 1000".
Definition dobare := bf "1110 1000".
Definition safoko := bf "1001 1111".
Definition nemeke := bf "1001 0111".
Definition nebugi := bf "1100 1010 0100 0000".
Definition timigi := bf "1011 0010 0001 0000".
Definition gibisi := bf "1101 0100 0101 0100".
Definition fodige := bf "0101 0011 0101 0001".
Definition kageda := bf "1111 0100 0010 0000".
Definition sofeke := bf "1011 0001 0011 0000".
Definition repuba := bf "0101 1100 0101 0000".
Definition topuke := bf "1101 0100 0100 0000".
Definition gepofu := bf "1110 1010 1100 0000".
Definition moniso := bf "1110 1000 1000 1000".
Definition kenera := bf "1101 1100 1100 1100".
Definition dorapi := bf "1111 1111 0010 1010".
Definition serabe := bf "0101 1111 1110 1110".
Definition bunese := bf "1111 1110".
Definition foravo := bf "0111 1110".
Definition logota := bf "0101 1100 0011 1010".
Definition kagusi := bf "0111 0000 1000 1100".
Definition piferi := bf "0111 1010 1100 1000".
Definition kabine := bfsa [0; 2; 3; 4; 12; 19; 28; 51; 60; 115; 124; 240; 242; 243; 244; 252] [0; 1; 2; 3; 4; 5; 6; 7].
Definition kasete := bfsa [0; 2; 4; 12; 18; 19; 28; 51; 60; 112; 115; 116; 124; 240; 242; 243] [0; 1; 2; 3; 4; 5; 6; 7].
Definition pelele := bf "0110 1001".
Definition potula := bf "1110 0010".
Definition kinide := bf "1110 0110".
Definition gilipi := bf "1010 0110".
Definition gelade := bf "1010 1110".
Definition vanatu := bf "1001 0101 0010 1010".
Definition vidita := bf "1011 1111 0010 1010".
Definition darimi := bfa "1111 0100 0000 0011" [1; 2; 3; 4].
Definition tavoku := bfs [0; 1; 2; 3; 4; 5; 6; 7; 10; 14] 4.
Definition dagoro := bfs [1; 3; 4; 5; 7; 10; 14] 4.
Definition tinora := bfs [1; 2; 3; 4; 5; 6; 7; 10; 14] 4.
Definition kusiga := bf "0111 1111 1110 1010".
Definition nosafu := bf "1101 1111 1110 1010".
Definition rudege := bf "0101 1111 1110 1010".
Definition farofe := bf "1110 1111 1110 1010".
Definition niliko := bf "1100 1111 1110 1010".
Definition sapigi := bf "0101 0101 1110 1010".
Definition dagese := bf "1101 0001 1010 1000".
Definition sirodo := bf "1101 1011 1001 1000".
Definition sibiki := bf "1110 0110 1010 0110".
Definition damogi := bf "1100 0011 1010 1010".
Definition kamepi := bf "1110 0110 0001 0110".
Definition kakedo := bf "1110 1001 0001 1001".
Definition rigafo := bf "1110 0110 0110 0001".
Definition ritake := bf "1110 1001 1001 0001".
Definition vinona := bf "1110".
Definition takate := bf "0111 1000".
Definition tatami := bf "1111 1000".
Definition neralo := bf "1011 1100".
Definition fetugi := bf "1111 0110".
Definition makoto := bf "1101 1000".
Definition berusa := bf "1101 0110".
Definition belaso := bf "0111 1111 1000 0000".
Definition limona := bf "1001 1111 0110 0000".
Definition gepiro := bf "0001 1111 1110 0000".
Definition perano := bf "1001 0111 0110 1000".
Definition kovane := bf "0001 0111 1110 1000".
Definition pesano := bf "1110 0111 0001 1000".
Definition paduro := bf "0110 0111 1001 1000".
Definition pikobi := bf "0010 0111 1101 1000".
Definition mesaba := bf "1000 0111 0111 1000".
Definition futuro := bf "0110 1001 1001 0110".
Definition patisi := bf "0110 1010 0100 0000".
Definition mariko := bf "1110 0010 0100 0000".
Definition sarobe := bf "1101 1010 1100 0000".
Definition tokasi := bf "1111 0110 0100 0000".
Definition dufato := bf "0001 1010 1100 0000".
Definition defura := bf "0111 1110 0100 0000".
Definition beligo := bf "1010 1011 1100 0000".
Definition bikisa := bf "1101 1000 1000 0000".
Definition lokuno := bf "1011 0100 1000 0000".
Definition potaka := bf "1011 1010 0100 0000".
Definition kilira := bf "1010 1011 0100 0000".
Definition monode := bf "1111 1110 0110 0000".
Definition maliba := bf "0111 1000 1000 0000".
Definition litari := bf "1101 0110 1100 0000".
Definition doneri := bf "1110 1110 0110 0000".
Definition periti := bf "1100 1001 1110 0000".
Definition botave := bf "1110 1011 0100 0000".
Definition karibo := bf "1110 1111 0110 0000".
Definition tokene := bf "1001 1010 0100 0000".
Definition lobaro := bf "0011 1010 0100 0000".
Definition nosato := bf "1110 1001 1110 0000".
Definition nevelo := bf "0110 1001 0110 0000".
Definition debote := bf "1110 0001 1110 0000".
Definition tusebo := bf "1101 1110 1110 0000".
Definition donefa := bf "0110 0001 0110 1000".
Definition tovalu := bf "0111 1110 1110 0000".
Definition novepa := bf "1110 0001 1110 1000".
Definition gorate := bf "1000 1101 1110 0000".
Definition fosoka := bf "0001 0110 1100 0000".
Definition girade := bf "0010 1101 1110 0000".
Definition gadame := bf "1110 1011 1100 0000".
Definition patina := bf "1101 1011 1100 0000".
Definition sedovo := bf "1111 0001 1110 1000".
Definition tobeno := bf "1000 0111 1110 0000".
Definition gatama := bf "1100 0001 1110 1000".
Definition lugape := bf "0100 0111 1110 0000".
Definition binuko := bf "1100 1101 1110 0000".
Definition sagali := bf "1011 1101 1110 0000".
Definition marive := bf "1100 1110 0110 0000".
Definition pukare := bf "0101 1010 1100 0000".
Definition debeva := bf "0011 0110 1100 0000".
Definition noliga := bf "1111 1100 1000 0000".
Definition sakura := bf "1111 1101 1110 1000".
Definition nisuke := bf "0111 0101 1110 1000".
Definition makesi := bf "1010 1111 1101 1000".
Definition negofo := bf "1001 1011 1101 1000".
Definition naboga := bf "1110 1111 1101 1000".
Definition kunoba := bf "1010 1101 1110 0000".
Definition dakota := bf "1111 1011 1100 0000".
Definition ruteve := bf "1100 0111 1110 0000".
Definition barono := bf "1111 1111 0110 0000".
Definition pebona := bf "0010 1111 1101 1000".
Definition kosume := bf "1100 1111 0111 1000".
Definition sokena := bf "0101 0111 1110 1000".
Definition tagapi := bf "1111 0111 0111 1000".
Definition patogo := bf "1101 1111 1110 0000".
Definition panama := bf "1111 1110 1100 0000".
Definition napotu := bf "0111 1111 1110 0000".
Definition kunuki := bf "0111 1111 0111 1000".
Definition vusami := bf "1111 1111 0111 1000".
Definition giniba := bf "1110 1101 1110 0000".
Definition dumako := bf "1011 0111 1011 1100".
Definition garuda := bf "1110 0111 1110 0000".
Definition ravepi := bf "1011 1110 1100 0000".
Definition gonogi := bf "1110 1011 0011 1100".
Definition nitaro := bf "1011 1111 1100 0000".
Definition dalifi := bf "1101 1011 0011 1100".
Definition dopeti := bf "0111 1110 1100 0000".
Definition bitamu := bf "0111 1011 1011 1100".
Definition lirafo := bf "0110 1111 1111 0000".
Definition toveta := bf "1101 0111 1110 0000".
Definition vemoga := bf "1111 1111 1001 0110".
Definition pigore := bf "1111 1010 0100 0000".
Definition tamino := bf "1111 1011 1101 1000".
Definition namisu := bf "1101 1111 0111 1000".
Definition tumude := bf "1011 1111 1101 1000".
Definition rafisa := bf "0111 1010 0100 0000".
Definition dilume := bf "1101 0110 1000 0000".
Definition gusoge := bf "1001 0110 1100 0000".
Definition kimuri := bf "0110 0011 1100 0000".
Definition pekube := bf "1111 0010 0100 0000".
Definition natuge := bf "1011 0110 0100 0000".
Definition ronobe := bf "1100 1001 0110 0000".
Definition lebeva := bf "0011 1110 0100 0000".
Definition rutiba := bf "0100 1001 1110 0000".
Definition sekedo := bf "1101 1010 0100 0000".
Definition tovuma := bf "1010 0011 1100 0000".
Definition papeso := bf "1011 1011 1100 0000".
Definition tagifo := bf "0001 1011 1100 0000".
Definition midego := bf "1111 0100 1000 0000".
Definition puloda := bf "0110 1011 0100 0000".
Definition biroka := bf "0111 1010 1100 0000".
Definition fatima := bf "1111 0111 1110 0000".
Definition kibaga := bf "0010 1011 1100 0000".
Definition vigura := bf "1111 0110 1000 0000".
Definition putuka := bf "0111 1011 1100 0000".
Definition bagoko := bf "0101 0110 1000 0000".
Definition foguna := bf "0100 1110 0110 0000".
Definition gukure := bf "1011 0110 1100 0000".
Definition kedosi := bf "1100 0001 0110 1000".
Definition fagido := bf "0111 1001 0110 1000".
Definition tapale := bf "0111 0110 1100 0000".
Definition rubuke := bf "1000 1001 1110 0000".
Definition senopo := bf "1101 1001 1110 1000".
Definition vumora := bf "1100 1111 0110 0000".
Definition legupa := bf "1111 0101 1110 1000".
Definition basoti := bf "0111 1101 1110 1000".
Definition ketube := bf "0110 1111 0110 0000".
Definition likiva := bf "1101 0101 1110 1000".
Definition fekamu := bf "1101 1111 1001 1000".
Definition vunigo := bf "1100 0110 0110 0000".
Definition mesoru := bf "1101 0111 1110 1000".
Definition temagu := bf "1100 1111 1001 1000".
Definition nofoli := bf "1111 1001 1110 0000".
Definition nigiri := bf "0111 0111 1110 1000".
Definition daroma := bf "0111 1111 1001 1000".
Definition vadila := bf "1001 1011 1100 0000".
Definition ketabo := bf "1000 1111 1110 0000".
Definition vurola := bf "1010 0101 1110 0000".
Definition levana := bf "1111 1101 1110 0000".
Definition metali := bf "0100 1111 1110 0000".
Definition pigide := bf "1110 0110 0110 0000".
Definition koluga := bf "0101 1110 1110 0000".
Definition varida := bf "0110 1110 0110 0000".
Definition gavedo := bf "1001 1001 1110 1000".
Definition bulatu := bf "0011 1101 1110 0000".
Definition radosu := bf "1010 1011 0101 1000".
Definition papela := bf "1111 0111 0110 1000".
Definition mabora := bf "1111 0101 0110 1000".
Definition betibo := bf "0111 1111 0110 1000".
Definition patati := bf "0110 1011 1100 0000".
Definition mutale := bf "0001 1001 1110 0000".
Definition sokite := bf "0101 1111 0111 1000".
Definition pulafe := bf "0001 1110 0110 0000".
Definition pisano := bf "1101 1011 1101 1000".
Definition kivude := bf "0111 1011 1101 1000".
Definition mivaka := bf "1001 1111 1001 1000".
Definition letoni := bf "0110 1111 1101 1000".
Definition dimato := bf "0011 1111 1101 1000".
Definition renada := bf "0101 1111 1110 0000".
Definition rosafa := bf "0110 1111 0111 1000".
Definition danupa := bf "0111 1111 1011 1100".
Definition setava := bf "1111 1101 0110 1000".
Definition tamogi := bf "1101 0111 0111 1000".
Definition korodi := bf "1001 1111 0111 1000".
Definition taseka := bf "1110 0111 1101 1000".
Definition nadopi := bf "0110 1111 1111 0110".
Definition sedesi := bf "1110 1111 0111 1000".
Definition bukusa := bf "1110 0111 0111 1000".
Definition sepena := bf "1001 1111 1111 0110".
Definition fabole := bf "1100 1011 1101 1000".
Definition litafe := bf "0111 0111 0110 1000".
Definition mateso := bf "0111 1100 1000 0000".
Definition lativu := bf "1101 0010 0100 0000".
Definition divune := bf "0101 1000 1000 0000".
Definition pamina := bf "1111 1010 1100 0000".
Definition rinodo := bf "0011 0100 1000 0000".
Definition namotu := bf "1010 1101 0110 0000".
Definition deliri := bf "1101 1001 1110 0000".
Definition basuva := bf "1000 0001 1110 0000".
Definition fegupe := bf "0110 1101 1110 0000".
Definition veroka := bf "1110 1001 0110 0000".
Definition ratava := bf "1110 1010 0100 0000".
Definition mafiso := bf "1110 0011 1100 0000".
Definition ludobe := bf "1001 1110 0110 0000".
Definition kulina := bf "1000 1111 0110 0000".
Definition masake := bf "1001 1111 1110 0000".
Definition padita := bf "1111 1111 1110 0000".
Definition datumi := bf "0101 1110 0110 0000".
Definition degade := bf "0100 1111 0110 0000".
Definition sukota := bf "1111 0110 1100 0000".
Definition vapota := bf "1001 0110 0110 0000".
Definition dekito := bf "1001 1001 0110 1000".
Definition desipa := bf "1101 1001 0110 1000".
Definition tidoma := bf "0011 0101 0110 1000".
Definition luneda := bf "1101 1110 0110 0000".
Definition pesalo := bf "1111 0110 0110 0000".
Definition giropa := bf "0001 1001 1110 1000".
Definition federu := bf "0101 1001 1110 1000".
Definition lagopu := bf "1111 1001 1110 1000".
Definition fenuko := bf "1101 0001 0110 1000".
Definition luvego := bf "1111 1001 0110 1000".
Definition rebalo := bf "1110 1111 1001 1000".
Definition punopa := bf "0111 0101 0110 1000".
Definition mibora := bf "0101 1001 0110 1000".
Definition fabomi := bf "1110 1011 0101 1000".
Definition ronota := bf "0110 0111 1110 0000".
Definition taseke := bf "1011 1101 0110 1000".
Definition lobefa := bf "1011 0101 1110 1000".
Definition kulema := bf "1001 0111 1110 0000".
Definition filese := bf "0101 0111 0110 1000".
Definition gadega := bf "1101 0111 0110 1000".
Definition vugabe := bf "1111 1111 1001 1000".
Definition bakive := bf "1000 1111 1111 1000".
Definition nogusi := bf "0110 1111 1110 0000".
Definition fodori := bf "0110 0001 1110 1000".
Definition tonaga := bf "1001 0101 0110 1000".
Definition figore := bf "1000 0111 1001 1000".
Definition misosu := bf "0110 1011 1101 1000".
Definition gamana := bf "1011 1100 1000 0000".
Definition bosure := bf "0101 0110 0110 1000".
Definition dolona := bf "0011 1101 1110 1000".
Definition sanoge := bf "1110 0001 0110 1000".
Definition dopita := bf "1110 0111 1001 1000".
Definition sanego := bf "1010 0111 1101 1000".
Definition burito := bf "1111 1111 1110 1000".
Definition noromo := bf "1000 1111 1001 1000".
Definition pasago := bf "1111 1001 0110 0000".
Definition vupiba := bf "0110 0111 0111 1000".
Definition kevopa := bf "1100 1111 1110 0000".
Definition gofere := bf "1101 0101 0110 1000".
Definition lebola := bf "1000 1011 1101 1000".
Definition sobuta := bf "1100 1111 1111 1000".
Definition lebeke := bf "0110 1111 1111 1000".
Definition pirude := bf "1001 1111 1111 1000".
Definition sabina := bf "0101 1111 1111 1000".
Definition karola := bf "1111 1111 1101 1000".
Definition takosa := bf "0110 1110 1110 0000".
Definition mogamo := bf "0111 1001 1110 1000".
Definition gadibe := bf "1011 0101 0110 1000".
Definition govaru := bf "1001 1110 1110 0000".
Definition kitobo := bf "1001 0111 1110 1000".
Definition femeri := bf "1111 1111 0110 1000".
Definition kabava := bf "1100 0111 1001 1000".
Definition gutasi := bf "1100 0111 0111 1000".
Definition petula := bf "1110 1111 1110 0000".
Definition romana := bf "1101 1111 1111 1000".
Definition rofude := bf "0111 1111 1111 1000".
Definition sulifi := bf "1001 0111 0111 1000".
Definition dukapu := bf "1111 1001 1001 0110".
Definition selene := bf "1111 1111 1011 1100".
Definition tonopa := bf "1111 0111 1110 1000".
Definition rapito := bf "1111 1011 1011 1100".
Definition petuvi := bf "1111 0111 1011 1100".
Definition daseru := bf "0111 1111 1110 1000".
Definition veneto := bf "1111 1111 1111 0110".
Definition naruto := bf "1110 1111 1111 1000".
Definition tabita := bf "1011 1111 1111 1100".
Definition gidisi := bf "0001 0110 1000 0000".
Definition bamuri := bf "1001 0010 0100 0000".
Definition gofona := bf "1111 0111 1000 0000".
Definition develo := bf "1110 1000 1000 0000".
Definition gutisi := bf "0111 1001 1110 0000".
Definition riloda := bf "1011 1100 1100 0000".
Definition volala := bf "0111 0110 1000 0000".
Definition ladari := bf "1101 0110 0110 0000".
Definition suveka := bf "1111 0001 0110 1000".
Definition piveda := bf "0011 1101 0110 1000".
Definition bamako := bf "1111 1110 1110 1000".
Definition nitako := bf "0111 0001 1110 1000".
Definition putivo := bf "0011 0101 1110 1000".
Definition dufika := bf "0110 1001 1110 0000".
Definition bevati := bf "0110 1011 0101 1000".
Definition kavomi := bf "0111 1101 0110 1000".
Definition buboku := bf "1111 1110 0100 0000".
Definition verona := bf "1110 1110 1110 0000".
Definition gonava := bf "1110 1001 1110 1000".
Definition marifi := bf "0011 1110 1100 0000".
Definition sakova := bf "1111 0110 0110 1000".
Definition karilo := bf "1001 1001 1110 0000".
Definition fidele := bf "0001 1011 1101 1000".
Definition vupami := bf "1111 0111 1001 1000".
Definition bilipa := bf "1010 1111 0101 1000".
Definition padasi := bf "0110 1111 1001 1000".
Definition sopuda := bf "1111 1111 0001 1000".
Definition dilaku := bf "1111 1011 1101 0110".
Definition nolide := bf "1011 1111 1101 0110".
Definition dogadu := bf "0011 1100 1000 0000".
Definition lodabi := bf "1000 0110 0110 0000".
Definition sokiko := bf "1111 1000 1000 0000".
Definition nelode := bf "1001 0110 1000 0000".
Definition gafule := bf "1001 0110 0100 0000".
Definition lafeso := bf "1011 1110 0100 0000".
Definition dotami := bf "0111 1110 0110 0000".
Definition makisi := bf "1001 0001 0110 1000".
Definition dotore := bf "0111 1110 0110 1000".
Definition seloku := bf "1001 0001 1110 1000".
Definition gakina := bf "1101 0001 1110 1000".
Definition vubeta := bf "1000 1001 0110 0000".
Definition kisago := bf "0100 1111 1111 1000".
Definition totoro := bf "1111 1110 1110 0000".
Definition kenuno := bf "1111 1111 1000 0000".
Definition modena := bf "1110 1111 1111 0000".
Definition nagini := bf "1111 1111 1111 1000".
Definition nibuda := bf "0110 1011 1011 1100".
Definition devima := bf "1101 1011 1011 1100".
Definition fiburi := bf "1111 1011 0011 1100".
Definition limeli := bf "1000 1111 1111 0000".
Definition kusabu := bf "1101 1111 0110 0000".
Definition livala := bf "1111 1101 1001 0110".
Definition vuregi := bf "1110 1011 1101 0110".
Definition milano := bf "1110 1111 1111 0110".
Definition vadusi := bf "1110 1011 1011 1100".
Definition vedeva := bf "1111 1111 1101 0110".
Definition peliki := bf "1101 1111 1111 0110".
Definition salomo := bf "1111 1111 0111 1110".
Definition modebi := bf "1111 1110 1000 0000".
Definition futopa := bf "0001 0110 0110 1000".
Definition rovabi := bf "1101 0110 0110 1000".
Definition dapeti := bf "0111 0110 0110 1000".
Definition sedope := bf "0001 1001 0110 1000".
Definition radosi := bf "1001 0101 1110 1000".
Definition sobagi := bf "0110 1001 1110 1000".
Definition dosori := bf "0001 1111 1111 1000".
Definition revina := bf "0101 1011 1011 1100".
Definition subaru := bf "1011 1111 1011 1100".
Definition rodoti := bf "0110 1011 1101 0110".
Definition legato := bf "0111 1111 1111 1110".
Definition makake := bf "0110 1000 1000 0000".
Definition fadike := bf "0111 1110 1000 0000".
Definition dideki := bf "1101 0110 0100 0000".
Definition galomo := bf "0110 1010 1100 0000".
Definition nofati := bf "1001 1010 1100 0000".
Definition vorago := bf "0101 0110 1100 0000".
Definition devipa := bf "0001 1110 1110 0000".
Definition danube := bf "1001 0110 0110 1000".
Definition robuna := bf "1111 1110 0110 1000".
Definition pavatu := bf "1000 0001 0110 1000".
Definition kibono := bf "0110 1001 0110 1000".
Definition foreba := bf "1110 1001 0110 1000".
Definition reviva := bf "0111 1110 1110 1000".
Definition segova := bf "1000 0001 1110 1000".
Definition lopika := bf "1011 1101 1110 1000".
Definition pidari := bf "1110 1111 0001 1000".
Definition penemo := bf "1110 1011 1101 1000".
Definition gikola := bf "0111 0111 0111 1000".
Definition nedina := bf "1000 1111 0111 1000".
Definition vasalu := bf "1110 0011 0011 1100".
Definition marisa := bf "1110 1001 1001 0110".
Definition kovade := bf "1011 1101 1101 0110".
Definition lodova := bf "1111 1101 1101 0110".
Definition domino := bf "1111 1111 1111 1110".

Definition kusaga := bf "1110 1000 0100 0010".
Definition damela_spread := bfa "1110 1000 0010 1011" [10; 20; 30; 40].
Definition damela := of damela_spread root_boolf.
Definition tokosi_bloatless := of tokosi (bloatless_boolf asis).
Definition formula6 (ab c d : string) : res boolf :=
  bor (bor (band (bfa ab [0; 1]) (bfa "1000" [2; 3])) (band (bfa c [2]) (bfa "0010 0000" [0; 1; 3]))) (band (bfa d [3]) (bfa "1000 0000" [0; 1; 2])).
Definition kibime := formula6 "1111" "11" "11".
Definition murife := formula6 "1101" "01" "11".
Definition menabe := formula6 "0111" "11" "01".
Definition tefabi := formula6 "0101" "01" "01".
Definition fobope := formula6 "1111" "10" "11".
Definition vinone := bfi "1111 1010".
Definition selera := bnot pelele.
Definition barita := band (bor (bfa "1000" [1; 2]) (bfa "1000" [4; 5])) (bfa "1110" [0; 3]).
Definition basori := bfs [0; 1; 2; 3; 4; 5; 6; 7; 8; 10; 12; 14; 24; 26; 28; 30] 5.
Definition basiga := bor (band (bfa "1110 0010" [0; 3; 4]) (bfa "1000 0000" [5; 6; 7])) (band (bfa "1110" [5; 7]) (mand (ints [nt 0; 1; nt 2; 3; nt 4]%Z))).
Definition putuki := band (bfa "1110" [0; 2]) (bfa "1110" [1; 3]).
Definition formula8 (frame_abc frame_de frame_fg frame_h : list Z) (abc de fg h : string) : res boolf :=
  bor (bor (bor (band (bfa abc [0; 1; 2]) (mand (ints frame_abc))) (band (bfa de [3; 4]) (mand (ints frame_de)))) (band (bfa fg [5; 6]) (mand (ints frame_fg))))
      (band (bfa h [7]) (mand (ints frame_h))).
Definition kusaru := formula8 [nt 3; nt 4; nt 5; nt 6; nt 7]%Z [nt 0; nt 1; nt 2; nt 5; nt 6; nt 7]%Z [nt 0; nt 1; nt 2; nt 3; nt 4; nt 7]%Z [nt 0; nt 1; nt 2; nt 3; nt 4; nt 5; nt 6]%Z "1111 1111" "1111" "1111" "11".
Definition sasunu := formula8 [nt 3; nt 4; nt 5; nt 6; nt 7]%Z [nt 0; nt 1; nt 2; nt 5; nt 6; nt 7]%Z [nt 0; nt 1; nt 2; nt 3; nt 4; nt 7]%Z [nt 0; nt 1; nt 2; nt 3; nt 4; nt 5; nt 6]%Z "0111 1111" "0111" "0111" "01".
Definition banatu := formula8 [nt 3; nt 4; nt 5; nt 6; nt 7]%Z [nt 0; nt 1; nt 2; nt 5; nt 6; nt 7]%Z [nt 0; nt 1; nt 2; nt 3; nt 4; nt 7]%Z [nt 0; nt 1; nt 2; nt 3; nt 4; nt 5; nt 6]%Z "1110 1001" "1111" "1111" "11".
Definition lekate := formula8 [nt 3; nt 4; nt 5; nt 6; nt 7]%Z [nt 0; 1; nt 2; nt 5; nt 6; 7]%Z [nt 0; 1; 2; nt 3; nt 4; nt 7]%Z [nt 0; 1; nt 2; nt 3; nt 4; nt 5; nt 6]%Z "1111 1111" "1111" "1111" "11".
Definition vepane := formula8 [nt 3; nt 4; nt 5; nt 6; nt 7]%Z [nt 0; 1; nt 2; nt 5; nt 6; 7]%Z [nt 0; 1; 2; nt 3; nt 4; nt 7]%Z [nt 0; 1; nt 2; nt 3; nt 4; nt 5; nt 6]%Z "1111 1100" "0111" "0111" "10".
Definition nutite := formula8 [nt 3; nt 4; nt 5; nt 6; nt 7]%Z [nt 0; 1; nt 2; nt 5; nt 6; 7]%Z [nt 0; 1; 2; nt 3; nt 4; nt 7]%Z [nt 0; 1; nt 2; nt 3; nt 4; nt 5; nt 6]%Z "1101 1111" "0111" "1111" "00".
Definition lobeva := formula8 [nt 3; nt 4; 5; nt 6; 7]%Z [nt 0; nt 1; nt 2; nt 5; 6; 7]%Z [nt 0; nt 1; nt 2; nt 3; nt 4; 7]%Z [nt 0; nt 1; nt 2; nt 3; nt 4; nt 5; nt 6]%Z "1111 1111" "1111" "1111" "11".
Definition tigola := formula8 [nt 3; nt 4; 5; nt 6; 7]%Z [nt 0; nt 1; nt 2; nt 5; 6; 7]%Z [nt 0; nt 1; nt 2; nt 3; nt 4; 7]%Z [nt 0; nt 1; nt 2; nt 3; nt 4; nt 5; nt 6]%Z "0111 1110" "0111" "1001" "11".
Definition karato := formula8 [nt 3; nt 4; 5; nt 6; 7]%Z [nt 0; nt 1; nt 2; nt 5; 6; 7]%Z [nt 0; nt 1; nt 2; nt 3; nt 4; 7]%Z [nt 0; nt 1; nt 2; nt 3; nt 4; nt 5; nt 6]%Z "1101 0001" "1101" "1110" "11".
Definition karafa := formula8 [nt 3; nt 4; 5; nt 6; 7]%Z [nt 0; nt 1; nt 2; nt 5; 6; 7]%Z [nt 0; nt 1; nt 2; nt 3; nt 4; 7]%Z [nt 0; nt 1; nt 2; nt 3; nt 4; nt 5; nt 6]%Z "1110 0001" "1011" "0110" "10".
Definition todeda := formula8 [nt 3; nt 4; 5; nt 6; 7]%Z [nt 0; nt 1; nt 2; nt 5; 6; 7]%Z [nt 0; nt 1; nt 2; nt 3; nt 4; 7]%Z [nt 0; nt 1; nt 2; nt 3; nt 4; nt 5; nt 6]%Z "1011 0101" "1101" "0111" "00".
Definition lapava := formula8 [nt 3; nt 4; 5; nt 6; 7]%Z [nt 0; nt 1; nt 2; nt 5; 6; 7]%Z [nt 0; nt 1; nt 2; nt 3; nt 4; 7]%Z [nt 0; nt 1; nt 2; nt 3; nt 4; nt 5; nt 6]%Z "0111 1111" "0111" "1001" "01".
Definition medina := bfsa [0; 2; 3; 4; 12; 16; 18; 19; 20; 28; 48; 50; 51; 52; 60; 112; 114; 115; 116; 124; 240; 242; 243; 244; 252] (range 8).
Definition gunumi := bfsa [0; 3; 12; 18; 20; 48; 51; 60; 114; 116; 240; 243; 252] (range 8).
Definition deginu := bfsa [0; 2; 3; 12; 19; 20; 51; 52; 115; 116; 240; 242; 243; 252] (range 8).
Definition pomote := bfsa [2; 4; 16; 19; 28; 50; 52; 112; 115; 124; 242; 244] (range 8).
Definition gulivu := bfsa [0; 16; 20; 50; 51; 52; 112; 114; 116; 243; 252] (range 8).
Definition filege := bfsa [2; 12; 18; 20; 48; 50; 51; 60; 112; 115; 116; 124; 242; 252] (range 8).
Definition bukoru := bfsa [2; 12; 16; 20; 50; 112; 115; 116; 240; 242; 243] (range 8).
Definition dukamu := bfsa [0; 2; 3; 4; 16; 18; 19; 20; 28; 50; 51; 52; 60; 112; 114; 115; 116; 240; 244; 252] (range 8).
Definition ligoba := bfsa [2; 4; 16; 18; 20; 50; 52; 112; 114; 115; 124; 240; 242; 243; 244; 252] (range 8).
Definition pirake := bfsa [4; 12; 16; 19; 50; 51; 60; 114; 244] (range 8).
Definition gatade := bfsa [0; 2; 3; 16; 20; 28; 48; 52; 60; 112; 116; 124; 240; 244; 252] (range 8).
Definition tinefa := bfsa [16; 18; 19; 48; 51; 52; 112; 114; 115] (range 8).
Definition manila_bloated := bfsa [2; 3; 4; 12; 18; 19; 20; 28; 50; 51; 52; 60; 114; 115; 116; 124; 242; 243; 244; 252] (range 8).
Definition manila := bfsa [0; 2; 3; 4; 8; 10; 11; 12; 24; 26; 27; 28; 56; 58; 59; 60; 120; 122; 123; 124] [0; 1; 3; 4; 5; 6; 7].
Definition nafega := bfsa [2; 3; 4; 8; 24; 56; 122; 123; 124] [0; 1; 3; 4; 5; 6; 7].
Definition takeli := bfsa [0; 2; 3; 4; 10; 11; 12; 26; 27; 28; 58; 59; 60; 122; 123; 124] [0; 1; 3; 4; 5; 6; 7].
Definition tevoga := bfsa [3; 4; 11; 12; 27; 28; 59; 60; 120; 122; 123; 124] [0; 1; 3; 4; 5; 6; 7].
Definition luvati := bfsa [0; 2; 3; 4; 8; 11; 24; 27; 28; 59; 60; 120; 122; 123; 124] [0; 1; 3; 4; 5; 6; 7].
Definition linaki := bfsa [0; 3; 10; 12; 24; 27; 58; 60; 120; 123] [0; 1; 3; 4; 5; 6; 7].
Definition karifu := bfsa [2; 4; 8; 11; 26; 28; 56; 59; 122; 124] [0; 1; 3; 4; 5; 6; 7].
Definition bokivi := bfsa [0; 8; 10; 11; 24; 28; 56; 120; 122; 123; 124] [0; 1; 3; 4; 5; 6; 7].
Definition nitevu := bfsa [0; 10; 11; 26; 27; 58; 59; 60; 124] [0; 1; 3; 4; 5; 6; 7].
Definition numado := bfsa [0; 2; 3; 8; 11; 24; 27; 28; 59; 60; 120; 122; 123; 124] [0; 1; 3; 4; 5; 6; 7].
Definition sigovu := bfsa [2; 12; 24; 26; 27; 60; 120; 122; 123] [0; 1; 3; 4; 5; 6; 7].
Definition nogoka := bfsa [2; 10; 11; 12; 24; 27; 28; 56; 58; 59; 122] [0; 1; 3; 4; 5; 6; 7].
Definition nusure := bfsa [2; 10; 11; 12; 24; 27; 28; 56; 58; 59; 120] [0; 1; 3; 4; 5; 6; 7].
Definition gufaro := bfsa [2; 10; 11; 12; 24; 27; 28; 56; 58; 59] [0; 1; 3; 4; 5; 6; 7].
Definition temapi := bfsa [8; 24; 56; 120] [0; 1; 3; 4; 5; 6; 7].
Definition kulika := bfsa [0; 3; 5; 6; 10; 12; 24; 30; 106; 202] (range 8).
Definition torova := bfsa [1; 2; 4; 7; 8; 14; 26; 28; 42; 74; 138] (range 8).
Definition doguva := bfsa [0; 1; 2; 3; 4; 5; 6; 8; 12; 14; 24; 28; 30; 42; 74; 106; 138; 202] (range 8).
Definition sarina := bfsa [0; 1; 2; 3; 4; 6; 8; 10; 24; 26; 106; 202] (range 8).
Definition dinado := bfsa [0; 1; 2; 7; 8; 12; 14; 24; 26; 28; 74; 106; 138; 202] (range 8).
Definition giteli := bfsa [0; 1; 2; 3; 4; 5; 8; 10; 12; 24; 26; 28; 42; 74; 106; 138; 202] (range 8).
Definition kokabi := bfsa [0; 2; 5; 6; 7; 14; 26; 28; 30; 42; 74; 202] (range 8).
Definition teloti := bfsa [1; 2; 3; 4; 5; 6; 8; 12; 14; 24; 26; 28; 42; 74; 138] (range 8).
Definition pamoda := bfsa [0; 1; 2; 4; 5; 6; 8; 26; 28; 30; 74; 106; 138] (range 8).
Definition tomute := bfsa [0; 3; 5; 7; 10; 28; 30; 42; 106; 202] (range 8).
Definition vumali := bfsa [2; 3; 5; 7; 10; 28; 30; 42; 106; 202] (range 8).
Definition futare := bfsa [7; 24; 106; 202] (range 8).
Definition geteso := bfsa [2; 5; 6; 30; 42; 202] (range 8).
Definition bitada := bfsa [2; 7; 10; 26; 74; 138] (range 8).
Definition duvola := bfsa [7; 10; 26; 74; 138] (range 8).
Definition todeda_blightless := of todeda (blightless_boolf asis).
Definition lapava_blightless := of lapava (blightless_boolf asis).
Definition futare_bloatless := of futare (bloatless_boolf asis).
Definition geteso_bloatless := of geteso (blightless_boolf asis).
Definition bitada_blightless := of bitada (blightless_boolf asis).
Definition duvola_blightless := of duvola (blightless_boolf asis).
