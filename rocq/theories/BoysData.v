(** The tables of the Boys function, transcribed digit by digit.
    Source: skel/simint/boys/boys_shortgrid.c:16-381 (boys_shortgrid), boys_longfac.h (boys_longfac).
    [D m e] is the decimal number m / 10^e. *)
From Coq Require Import ZArith List.
Import ListNotations.
Local Open Scope Z_scope.

(** A decimal literal. *)
Inductive dec := D (m e : Z).

(** [boys_shortgrid]: row i is x = i / 10, column n the order. *)
Definition shortgrid_data : list (list dec) := [
 (* 0.0 *) [D 10 1;D 333333333333333333 18;D 2 1;D 142857142857142857 18;D 111111111111111111 18;D 909090909090909091 19;D 769230769230769231 19;D 666666666666666667 19;D 588235294117647059 19;D 526315789473684211 19;D 47619047619047619 18;D 434782608695652174 19;D 4 2;D 37037037037037037 18;D 344827586206896552 19;D 322580645161290323 19;D 30303030303030303 18;D 285714285714285714 19;D 27027027027027027 18;D 25641025641025641 18;D 243902439024390244 19;D 232558139534883721 19;D 222222222222222222 19;D 212765957446808511 19;D 204081632653061224 19;D 19607843137254902 18;D 188679245283018868 19;D 181818181818181818 19;D 17543859649122807 18;D 169491525423728814 19;D 163934426229508197 19;D 15873015873015873 18];
 (* 0.1 *) [D 967643312635591831 18;D 314029472998161289 18;D 186255004792621473 18;D 132188029635738948 18;D 102393947071065319 18;D 835405280181414827 19;D 705419508179836834 19;D 610397129891415521 19;D 537913840058185382 19;D 480805503147778837 19;D 434651897241010828 19;D 396578308508158282 19;D 364634576640223775 19;D 337451178229993164 19;D 314038159251098418 19;D 293662189611291984 19;D 275768487952278917 19;D 259929610328042599 19;D 245810905609476138 19;D 233146635955106875 19;D 221723109447862008 19;D 211366535013732894 19;D 201934126154593462 19;D 193307482985550342 19;D 185387599806351692 19;D 178091050758185923 19;D 171347041539431657 19;D 165095106151410486 19;D 159283289839905094 19;D 153866702574973225 19;D 148806357819122757 19;D 144068233034462217 19];
 (* 0.2 *) [D 937150028797978684 18;D 296048189299992062 18;D 173534537054985821 18;D 122354830492368121 18;D 943826509214874721 19;D 767827630385134765 19;D 646991008641659577 19;D 558938953904389795 19;D 49194194446507084 18;D 439263812815964213 19;D 396762281808753649 19;D 361750968010020104 19;D 332411833626609533 19;D 307470774713549343 19;D 286008466215034188 19;D 267344973640432192 19;D 250966630183948392 19;D 236478163226195912 19;D 223570455342595805 19;D 211998292240565479 19;D 201564666505587781 19;D 192109489873201069 19;D 183501334419568451 19;D 175631295251904271 19;D 168408365149205401 19;D 161755903828115116 19;D 155608911135130851 19;D 149911898455291228 19;D 144617210652997339 19;D 139683691102574388 19;D 135075610680175811 19;D 130761801777264708 19];
 (* 0.3 *) [D 908392877032750536 18;D 279291093918387782 18;D 161758435122409136 18;D 113289924883879687 18;D 870187558423999078 19;D 705843031664688398 19;D 593485235823989523 19;D 511876431491141905 19;D 44994044258324985 18;D 401342195163447976 19;D 362199168813888128 19;D 330000563790786712 19;D 303051267284859535 19;D 28016579217384951 18;D 260490303127930181 19;D 243394306487994296 19;D 228402157184407513 19;D 215148300447115443 19;D 203347181386436388 19;D 192772507468279517 19;D 183242640742870866 19;D 174610106067544756 19;D 166753923478743103 19;D 159573916210434934 19;D 152986425122105417 19;D 146921040276644611 19;D 141318078819494196 19;D 13612661769335624 18;D 131302943862357586 19;D 126809322228672886 19;D 122613007790869345 19;D 118685447376419012 19];
 (* 0.4 *) [D 881254034939924496 18;D 263667486130356494 18;D 150853015444287727 18;D 104931288982249165 18;D 802487210501310663 19;D 648980542694253695 19;D 54448188660049705 18;D 468830081812585806 19;D 411563458540492596 19;D 366722918539976414 19;D 330668739878948582 19;D 301053846376909014 19;D 276297507890642893 19;D 255296546137099154 19;D 237257856681605194 19;D 221596729262697024 19;D 207872683484018425 19;D 195747618270268762 19;D 184957723878767068 19;D 175294153947485621 19;D 166589429494432756 19;D 1587076861441875 17;D 151537554804586864 19;D 144986882312519817 19;D 138978760415047967 19;D 133448499976196706 19;D 128341298037048729 19;D 123610419508987068 19;D 119215765797369699 19;D 115122737617099804 19;D 111301323815619301 19;D 107725365495480468 19];
 (* 0.5 *) [D 855624391892148803 18;D 24909373217951538 17;D 140750536825912715 18;D 972220244169301519 19;D 740235112058776398 19;D 596809411402653349 19;D 499596928302852604 19;D 429453470810749614 19;D 376495465034909974 19;D 335116308467135329 19;D 30190326374923702 18;D 274661941607643174 19;D 251918059849458768 19;D 232644899110134958 19;D 216105678847309638 19;D 201758089445645278 19;D 189194175688669391 19;D 17810120059975568 18;D 16823542386511456 18;D 159404085882904469 19;D 151452752306940054 19;D 144256247458207964 19;D 137712043576608199 19;D 131735363821034731 19;D 126255502462298103 19;D 12121302352627282 18;D 116557602713579603 19;D 112246346693384704 19;D 108242471009824472 19;D 104514250433660664 19;D 101034178459644965 19;D 977782889120086437 20];
 (* 0.6 *) [D 831402871214021221 18;D 235492695933328991 18;D 131388709754967116 18;D 901099272340076235 19;D 682982121200224433 19;D 54893560821812964 18;D 458479441215968095 19;D 393430312389434092 19;D 344448604084372543 19;D 30625825707839075 18;D 275658769624299941 19;D 250598167641695365 19;D 229701245682274232 19;D 21201231759715957 18;D 196846845152536726 19;D 183701790402750597 19;D 172199284620836816 19;D 162050026289458826 19;D 153028799325662142 19;D 144957678424362432 19;D 137694248008225435 19;D 131123172830815415 19;D 125150058987332114 19;D 119696911241400686 19;D 114698722837973272 19;D 110100881767021656 19;D 105857174314866793 19;D 101928231456396414 19;D 982803076346153693 20;D 948843118606764371 20;D 917150323663712197 20;D 887505111736500631 20];
 (* 0.7 *) [D 808495806912583465 18;D 22279321651512425 17;D 122710246967116598 18;D 835470936029810523 19;D 630316795924698939 19;D 504998661005853788 19;D 420808737964497515 19;D 360471825445980393 19;D 31516024555400768 18;D 279907954645739576 19;D 251712928824969137 19;D 228656048150183382 19;D 209454335385801877 19;D 193218104807822699 19;D 179311279926512668 19;D 167267199967694455 19;D 156735829346023549 19;D 147449521789058558 19;D 139200160502110283 19;D 131823500474275242 19;D 125188200416170915 19;D 119187985106365979 19;D 113735944042601406 19;D 108760317144977222 19;D 104201334214167358 19;D 100008813271503847 19;D 961403135232864805 20;D 925596991572059431 20;D 892360112373083739 20;D 861425732946301189 20;D 832562760493441919 20;D 805570007827861117 20];
 (* 0.8 *) [D 78681637046172043 17;D 210929628965311774 18;D 114662451736696081 18;D 774895591039117593 19;D 581862185063504523 19;D 464668765249577995 19;D 386291735358213771 19;D 330314324052851944 19;D 288390762262852032 19;D 255845823310167891 19;D 229863126075608765 19;D 208647504009730089 19;D 191001844407235081 19;D 176097793130413199 19;D 163344233343087788 19;D 152308203610831209 19;D 142665419227219724 19;D 134168245828771868 19;D 126624351771749667 19;D 119882108989076096 19;D 113820380876094889 19;D 108341234217296587 19;D 103364643857210842 19;D 988245827514199957 20;D 946660925903274278 20;D 908430598461425291 20;D 873165068631581695 20;D 840532641094794199 20;D 810249280307201127 20;D 782070353617690692 20;D 755784032325994797 20;D 731205975102202178 20];
 (* 0.9 *) [D 76628404352069614 17;D 199841324322276127 18;D 107196840681238483 18;D 718969687031073898 19;D 537272895450847871 19;D 427644145362022065 19;D 354660556431250888 19;D 302717020111261349 19;D 263921502368293954 19;D 23387163491944783 18;D 209924703368620916 19;D 190401207408360062 19;D 174183984992383498 19;D 160501681890886855 19;D 148804896471085538 19;D 138691889030827488 19;D 129862201416478336 19;D 122086694076552212 19;D 115187608485186827 19;D 109024953636623041 19;D 103486996901281938 19;D 984834864147601998 20;D 93940732460387484 19;D 897979796174698122 20;D 860046914528278091 20;D 825184909903175159 20;D 793035795001123286 20;D 76329508944423498 19;D 735702191873895957 20;D 710032757084532411 20;D 686092607737500599 20;D 663712832182014076 20];
 (* 1.0 *) [D 746824132812427025 18;D 189472345820492352 18;D 100268798145017367 18;D 667322747768222568 19;D 496232411331567381 19;D 393648645134841608 19;D 325670342384417239 19;D 277460019641500443 19;D 241552941454041711 19;D 213802796502142938 19;D 191729360913146307 19;D 173761083730824617 19;D 158855257047271492 19;D 14629350723368204 18;D 13556514179749593 18;D 126297350206479381 19;D 118211722343218805 19;D 111096212805898677 19;D 104786518246015238 19;D 991533816940702972 20;D 940937371771591874 20;D 895244062745517334 20;D 853775290456506606 20;D 815971976699282546 20;D 781369393861023742 20;D 749578091022965594 20;D 720269262513506575 20;D 693163398035808159 20;D 668021387412608286 20;D 644637482687220083 20;D 622833680700876379 20;D 602455202804613487 20];
 (* 1.1 *) [D 728367323703093494 18;D 179771018184097246 18;D 938372594791873564 19;D 619614607717532857 19;D 458450644109970211 19;D 362429527276789258 19;D 299097255938130136 19;D 254342495552225563 19;D 22110299831935814 18;D 195472788385587659 19;D 175123701066077271 19;D 15858494791219416 18;D 144883165908940978 19;D 133349232155785873 19;D 123508377829737741 19;D 115014600037090431 19;D 107609892804094468 19;D 101098011615600867 19;D 953270770751067402 20;D 90177733999160843 19;D 855549040847624283 20;D 813819229520291032 20;D 77596295434752683 19;D 741465716286705465 20;D 709900134394182519 20;D 68090827977590369 19;D 654188135801424022 20;D 629483103485235378 20;D 60657378267272293 19;D 585271473880568943 20;D 565412995066187412 20;D 546856513286125822 20];
 (* 1.2 *) [D 710849269313848801 18;D 170689607250686127 18;D 878644207666067847 19;D 575532883003465944 19;D 423661692459266935 19;D 333755463754742271 19;D 274736659241726675 19;D 233181021258510751 19;D 20240549989818346 18;D 178729741311290773 19;D 159967902413543217 19;D 144743263150994416 19;D 132147055562854421 19;D 121555945812224817 19;D 112528507420020461 19;D 104743581691071829 19;D 979620472088357198 20;D 92002266153982411 19;D 867238317780680911 20;D 820165236110410017 20;D 777926257119075422 20;D 739814729442451102 20;D 705255072835494891 20;D 673773785990441846 20;D 644977812637732128 20;D 618538178345276922 20;D 594177460162047236 20;D 571660082236789108 20;D 550784721584663026 20;D 531378307960659506 20;D 513291241024458824 20;D 496393546363241078 20];
 (* 1.3 *) [D 694210212260006337 18;D 162184007394612975 18;D 823154727499332003 19;D 534790656598666917 19;D 391621794557900918 19;D 307414700261916241 19;D 252401450977289471 19;D 213808050909475806 19;D 18530878203923502 18;D 163435140125718967 19;D 146134512326359362 19;D 132118010966700217 19;D 1205370468822996 17;D 110810862198986141 19;D 102528980397115302 19;D 95393269683160659 19;D 891820883991747682 20;D 837273026279389695 20;D 788991006298991933 20;D 745956896023631234 20;D 707361400584753005 20;D 672553123297543416 20;D 641001922458887152 20;D 612272002787946744 20;D 586001856781629488 20;D 561889107268686386 20;D 539678910500671296 20;D 519154981974737835 20;D 50013257892666177 19;D 482452959776330986 20;D 4659789705393338 18;D 450591499806962102 20];
 (* 1.4 *) [D 678394636355279378 18;D 154213454433454607 18;D 77158356913841909 18;D 497124359384296672 19;D 362107455812147118 19;D 283213379604735463 19;D 23192054865572333 18;D 196070533252978045 19;D 169674414063787825 19;D 149462642738688661 19;D 133507347363935642 19;D 120601662580922752 19;D 109953071408985184 19;D 101020409217344584 19;D 934219319472282163 20;D 86880852519126251 19;D 811917102417317894 20;D 761988566289586713 20;D 717822652133888303 20;D 678479190997578404 20;D 643211448123182164 20;D 611418921032078946 20;D 582613289363838209 20;D 556393438290025604 20;D 532426859096627031 20;D 510435607705027434 20;D 490185570998482652 20;D 471478167413904585 20;D 454143862001465879 20;D 438037049972466923 20;D 423031983648178849 20;D 409019502992236456 20];
 (* 1.5 *) [D 663350945840334806 18;D 146740261897301659 18;D 723635418478250493 19;D 462291830302318058 19;D 334913736877309372 19;D 26097401013716202 18;D 213137503341494644 19;D 17982864731837736 18;D 155376036097120705 19;D 136697004055584563 19;D 121980491857269472 19;D 110096242506120207 19;D 100303992052155488 19;D 92099399939862971 19;D 851273989640006429 20;D 791309894905734518 20;D 73919690907826239 19;D 693493994913225328 20;D 653091269039967864 20;D 617120313211942694 20;D 584892066807594057 20;D 555852908089457819 20;D 529553011001234443 20;D 505623160070855678 20;D 483757502829077991 20;D 463700541260612883 20;D 445237196482758051 20;D 428185132914397931 20;D 412388765149634441 20;D 397714532895393414 20;D 384047141995076182 20;D 371286548952221406 20];
 (* 1.6 *) [D 649031169897861785 18;D 139729578719751993 18;D 67903818176437678 18;D 430070540273540568 19;D 30985268811507184 18;D 240534066590341398 19;D 195909235171000405 19;D 164954649148890994 19;D 142298299152128381 19;D 125033095512383873 19;D 111457385871481097 19;D 100512476048296548 19;D 915068028638332871 20;D 839702786403994041 20;D 775726072950718207 20;D 720751348782902233 20;D 673012504001383865 20;D 631175260181289595 20;D 594213220899873425 20;D 56132417932180496 19;D 53187224815151644 19;D 505346992108322867 20;D 481334019122607014 20;D 459493456578679615 20;D 439543956166375327 20;D 421250641464640676 20;D 404415911009729252 20;D 388872338765659227 20;D 374477135201786449 20;D 361107783448839614 20;D 348658570004998871 20;D 337037803387309467 20];
 (* 1.7 *) [D 635390690402152862 18;D 133149166573358298 18;D 637541104903941889 19;D 400255965880106748 19;D 286751917833353157 19;D 221744711756715268 19;D 180104879057800425 19;D 151331819771782064 19;D 130335898838054252 19;D 114375011682228172 19;D 101849994539702576 19;D 917690131783551765 20;D 834859007573007521 20;D 765624348250506763 20;D 706913234555946348 20;D 656509234367346783 20;D 612774664739495662 20;D 574473979744085834 20;D 540657907579276229 20;D 510585345635222195 20;D 483669433676529581 20;D 459439522195366997 20;D 437513837978622314 20;D 417579501107217381 20;D 399377690225221137 20;D 38269247522422667 19;D 367342303282969155 20;D 353173431977617699 20;D 34005480985162012 19;D 327874045961435832 20;D 31653420777977914 19;D 305951255674430154 20];
 (* 1.8 *) [D 622387991021315007 18;D 126969195222146797 18;D 598913048457927367 19;D 37266010002049207 18;D 265453282757660862 19;D 204469628500856216 19;D 165604730914875833 19;D 1388535054659779 17;D 119392694381611979 19;D 104635256186538405 19;D 930780514801011987 20;D 837917219072943859 20;D 76172422681084859 19;D 698115791142378033 20;D 644232649634875854 20;D 598016115903540534 20;D 557947436347528534 20;D 522882382586052163 20;D 491942935653658856 20;D 464444388062978849 20;D 439845086749311471 20;D 417711037378643467 20;D 397690495867504238 20;D 379495414410843576 20;D 36288768198638729 19;D 347668776437312048 20;D 333671882262294615 20;D 32075581603971133 19;D 308800294451519259 20;D 297702211549428877 20;D 287372683127124978 20;D 277734680165547171 20];
 (* 1.9 *) [D 609984425946011281 18;D 121162054400888481 18;D 562940905210606291 19;D 34711008784912656 18;D 245811690188825104 19;D 18858395249291458 18;D 152299285577818383 19;D 127422242180339068 19;D 109380905389140919 19;D 957339998392223948 20;D 850683696628618354 20;D 765130449194073728 20;D 695036423473734334 20;D 636591753836803445 20;D 58713563982373362 19;D 544755692795992029 20;D 508043303792696749 20;D 475938711288286171 20;D 447629729691187028 20;D 422483704292214418 20;D 400000669771804487 20;D 37978040483696808 19;D 361498812033190044 20;D 344890689271064923 20;D 329736966704354246 20;D 315855117434171792 20;D 303091859705067396 20;D 291317537396070188 20;D 280421745926409224 20;D 270309893563636977 20;D 260900473155546416 20;D 252122879006533184 20];
 (* 2.0 *) [D 598144006661304101 18;D 115702180856172852 18;D 529428148329764663 19;D 323446977320674099 19;D 227694002219647944 19;D 173973296902676144 19;D 140088358390827667 19;D 116948956678658188 19;D 100220379453436476 19;D 875984045855732916 20;D 777542136899414055 20;D 698714137806606493 20;D 634224211472670036 20;D 580519240788870427 20;D 535122794409558085 20;D 496258178553978818 20;D 462618802878018543 20;D 43322304282833568 19;D 407319543832619899 20;D 384323699536416771 20;D 363773989564746218 20;D 345301312123331438 20;D 328607024410495657 20;D 313446943702758845 20;D 299619507592099136 20;D 286956887087897119 20;D 275318229455370964 20;D 26458445936834798 19;D 254654235399467429 20;D 245440773527093567 20;D 236869328609312813 20;D 2288751803767031 18];
 (* 2.1 *) [D 586833205308846941 18;D 110565899299015484 18;D 49819349915253462 18;D 301524574579250952 19;D 210978033220223229 19;D 160532861060045229 19;D 128880283126352003 19;D 10735223764589451 18;D 918379243234758436 20;D 801620073736357711 20;D 71074727992681083 19;D 638107155515437242 20;D 578767083704015607 20;D 529412920786237896 20;D 487739532364340994 20;D 452096098397070907 20;D 421270529764525501 20;D 394353489745512026 20;D 37064983709398331 19;D 349619320756950347 20;D 330835877195922029 20;D 313959080889193374 20;D 29871372688979144 19;D 284874972557719942 20;D 272257353551106255 20;D 260706547310956068 20;D 250093116085849635 20;D 240307696964723719 20;D 231257263752765124 20;D 222862192526052624 20;D 215053936604503291 20;D 207773168470597557 20];
 (* 2.2 *) [D 576020773306374634 18;D 105731276123645625 18;D 4690697045650068 17;D 281208395273112537 19;D 195551632565556575 19;D 148166615787879623 19;D 118591179555303867 19;D 985576705899116907 20;D 841666989148492109 20;D 73364158620249489 19;D 649744159457730586 20;D 582798070995216813 20;D 528190862876499629 20;D 482830849017977816 20;D 444572065284548343 20;D 411880467504207637 20;D 383631512817511006 20;D 358982746987380654 20;D 33729097916475785 19;D 318056907468784571 20;D 30088717160209317 19;D 285467772602825372 20;D 271545087656386973 20;D 258912070069096692 20;D 24739805841230822 19;D 236861142265844198 20;D 227182368028333125 20;D 218261288470060743 20;D 210012506731807399 20;D 20236296533628032 19;D 195249799683443304 20;D 188618623740148454 20];
 (* 2.3 *) [D 565677574001107307 18;D 101177984843109472 18;D 44190241479679279 18;D 262374703642592742 19;D 181311845276111274 19;D 136786558751513941 19;D 109144284573612176 19;D 904972309193306422 20;D 771456579482439774 20;D 671495104113283215 20;D 594026653450436458 20;D 532320728299737443 20;D 482063560568171264 20;D 440370574331284399 20;D 405243724927022915 20;D 375257315348541557 20;D 349367913809655414 20;D 326794952921359847 20;D 306943256514613321 20;D 289351330165286851 20;D 273655979166481267 20;D 259567559466382299 20;D 246852322776970759 20;D 235319598409415385 20;D 224812337600467333 20;D 215200036987505643 20;D 206373372626611827 20;D 198240081941315974 20;D 190721768367827218 20;D 183751396670821311 20;D 177271311151757381 20;D 171231653908005845 20];
 (* 2.4 *) [D 555776428234162854 18;D 96887182280156323 18;D 416549153231367637 19;D 244909631929731906 19;D 168164143877916315 19;D 126312033751483708 19;D 100469341327540782 19;D 831087300758135687 20;D 7071904546730802 18;D 614675500104398556 20;D 543133161050483796 20;D 486250219399772788 20;D 439991607761150789 20;D 401665596893233204 20;D 369411622328342953 20;D 341904524704311523 20;D 318176028519251431 20;D 297502835873759771 20;D 279334151383404507 20;D 26324339005098259 19;D 248895183968139724 20;D 236022336198432993 20;D 224409401581535071 20;D 213880779630797471 20;D 204291940355464751 20;D 195522864265942179 20;D 187473072629541833 20;D 180057816755097257 20;D 173205123456062244 20;D 166853480844645332 20;D 160950008519338382 20;D 155448998070498114 20];
 (* 2.5 *) [D 546291971785147992 18;D 928413946322498393 19;D 392878370545701446 19;D 228708373297903855 19;D 156021725369267807 19;D 116669108416884462 19;D 925020412693482264 20;D 763353100525077982 20;D 648359329097258044 20;D 562721746452701445 20;D 496642664042289586 20;D 444199216499640357 20;D 40161642342036974 19;D 366382144623872798 20;D 336763608490937204 20;D 311528956769459881 20;D 289779559492675356 20;D 270845120173681446 20;D 254215868737794218 20;D 239497456181701306 20;D 226380185739294287 20;D 214617550584237252 20;D 204010962546464465 20;D 194398690440204278 20;D 185647717659944311 20;D 177647660589478346 20;D 17030616553470323 19;D 163545382189878335 20;D 157299231610685781 20;D 151511267883842001 20;D 146132988551359714 20;D 141122487848612608 20];
 (* 2.6 *) [D 537200523750481533 18;D 890244126031053179 19;D 370768576144196295 19;D 213674442034162052 19;D 144804867710729915 19;D 107790005241005852 19;D 851835145207164547 20;D 701249820434567512 20;D 594497977900985508 20;D 515213039016031843 20;D 454171138436772497 20;D 405814631872852766 20;D 366611290700427997 20;D 334216239630252283 20;D 307015509342966079 20;D 283863836444736201 20;D 263927136221814265 20;D 246584168055092826 20;D 231363088556704015 20;D 217899318300896253 20;D 205906844673378043 20;D 195158232725983024 20;D 185470420343054228 20;D 176694441154625426 20;D 168707867852693648 20;D 161409173720884754 20;D 15471346890994893 19;D 14854923669113562 19;D 142855807034436738 20;D 137581380678751154 20;D 132681468964025011 20;D 128117651033103386 20];
 (* 2.7 *) [D 5284799649863474 16;D 854211948604810435 19;D 350107540447580306 19;D 199718995340815533 19;D 134440340738557608 19;D 996125813425038551 20;D 784598643277860658 20;D 644302053451335563 20;D 545181394036121655 20;D 471765263822054004 20;D 415368284934083254 20;D 370774575859402189 20;D 334678513109495155 20;D 304891028474518956 20;D 279908610155006535 20;D 258666374170409813 20;D 240390060242171797 20;D 224503835929017184 20;D 210570922877893502 20;D 198254235649459827 20;D 187289614139621618 20;D 177467204768427744 20;D 168618246493966018 20;D 160605521898795239 20;D 153316343568222174 20;D 146657326086650004 20;D 140550436378550684 20;D 134929972979298097 20;D 129740229608596077 20;D 124933669206481457 20;D 120469483186561009 20;D 116312444519489824 20];
 (* 2.8 *) [D 52010962581807524 17;D 820177791415816563 19;D 330791562142012507 19;D 186760211510336229 19;D 124860866842888206 19;D 920798527381811086 20;D 72281741762109383 19;D 592075029741504159 20;D 500021282785851051 20;D 432027775863869886 20;D 379914549802094882 20;D 338785586307535005 20;D 305546825455626538 20;D 278154352476583383 20;D 255207366847491934 20;D 235715602867048141 20;D 218960254706552837 20;D 204407525499008413 20;D 191653058918481778 20;D 180385163832505233 20;D 170359844097483495 20;D 161383454549111931 20;D 153300407694645807 20;D 145984300667368718 20;D 139331405150809507 20;D 133255819619262387 20;D 127685810367961648 20;D 122561015532173366 20;D 117830284240667614 20;D 113449989142188842 20;D 109382695869168783 20;D 105596104553124871 20];
 (* 2.9 *) [D 512070182282748204 18;D 788012003838518923 19;D 312724794991635255 19;D 174722719723121377 19;D 116004627154789198 19;D 851395592808673254 20;D 666039571595634981 20;D 544171107776298596 20;D 458662863966164833 20;D 395680462376565389 20;D 347518410261037843 20;D 309580105145012381 20;D 278969036671476182 20;D 253776536404514075 20;D 232697323669165021 20;D 214810410476734952 20;D 199448399851389759 20;D 18611641197502399 19;D 174440071290537369 20;D 164131143467096507 20;D 154964239582076015 20;D 146760658142136844 20;D 139376947322614032 20;D 132696659289122165 20;D 126624307060003249 20;D 121080869017144192 20;D 116000399005798433 20;D 11132743821837828 19;D 107015016615531469 20;D 10302309335251221 19;D 993173279581892261 21;D 958681034153137745 21];
 (* 3.0 *) [D 504343560231438807 18;D 757594153105958107 19;D 295818629273205815 19;D 163537077114564941 19;D 107814809353885859 19;D 787437667510555509 20;D 613851250971619383 20;D 500226570974109614 20;D 420781954637541653 20;D 362431065341968967 20;D 317913900785169345 20;D 282914179950360326 20;D 254719883678648866 20;D 231548375863304557 20;D 212183218587138124 20;D 195767750373435218 20;D 181682237465016242 20;D 169467833259856947 20;D 158777887884766473 20;D 149345835824994201 20;D 140963460064729926 20;D 13346583764458878 19;D 12672069698848721 19;D 120620754615921691 20;D 115078105026987534 20;D 110020051589332474 20;D 10538596571159365 19;D 101124890988011527 20;D 971936945923732771 21;D 935556258298137493 21;D 901791811954361516 21;D 870372026892018253 21];
 (* 3.1 *) [D 496912846672130588 18;D 728812329481569003 19;D 279991123307924024 19;D 153139289129684203 19;D 100239193543905058 19;D 728485028967044298 20;D 565873399884146237 20;D 459908703086793625 20;D 386082307571955447 20;D 332012740220558385 20;D 290858358844327211 20;D 258565370383079164 20;D 232594077331458091 20;D 211279305472688977 20;D 193487259420455127 20;D 178421013522164204 20;D 165505029005049953 20;D 154313825453365781 20;D 144526395405164797 20;D 135896192037954337 20;D 128230846794264278 20;D 121378141807912065 20;D 115216106191038414 20;D 109645893425959359 20;D 10458657284908214 19;D 999712629434264919 21;D 957442210901565287 21;D 918586255520186154 21;D 882748654847166514 21;D 849592085924304069 21;D 818827528383247421 21;D 790205941583917196 21];
 (* 3.2 *) [D 489762207784512201 18;D 701562505947103103 19;D 265166480946507368 19;D 14347036952326167 18;D 932297729498702405 20;D 674134244945578145 20;D 521758796338240326 20;D 422913117900078549 20;D 354293182916336988 20;D 304181829959548012 20;D 266130370530436049 20;D 236330841141021174 20;D 212404523188572731 20;D 19279573154339012 19;D 176447555286704958 20;D 162618547730909729 20;D 150774153409621888 20;D 140519791356390746 20;D 131558171818289778 20;D 123661243662515664 20;D 116651266406482718 20;D 1103877382545578 18;D 104758179235838105 20;D 996715105900145608 21;D 950532187334473186 21;D 908417687659839213 21;D 869859076919622611 21;D 834426109120903629 21;D 801755003638044443 21;D 771536129531612205 21;D 743504322499828894 21;D 717431202206773026 21];
 (* 3.3 *) [D 482876813083812836 18;D 675747948003898229 19;D 251274571212014338 19;D 134475936673889642 19;D 867424064704283998 20;D 624015127608265975 20;D 481189342964685634 20;D 388961320972259499 20;D 325167132493923022 20;D 278715835192831943 20;D 243527898263607027 20;D 216025624759355609 20;D 19398070141533007 19;D 17593951443321988 19;D 160916689329232758 20;D 148222310670265067 20;D 137359831917305537 20;D 127963289870770026 20;D 119757334144386421 20;D 112531003517923795 20;D 106120060162882946 20;D 100394807053666702 20;D 952515095732829752 21;D 906062410111717179 21;D 863903920304651813 21;D 825473438437565664 21;D 790299690769067183 21;D 757987304472811405 21;D 728202173449185127 21;D 70066007353993133 20;D 675117717820597427 21;D 651365664517642058 21];
 (* 3.4 *) [D 476242765253032195 18;D 651278669548097229 19;D 238250486623681014 19;D 126105843163991805 19;D 807365003742179176 20;D 5777879467127948 18;D 443873590854137478 20;D 357798483098702833 20;D 298477978007049199 20;D 255411563248121828 20;D 22286657436495688 19;D 197481039063453903 20;D 177167191533357619 20;D 160566587103137138 20;D 146760419963543348 20;D 135106644545610168 20;D 125143968364898125 20;D 116532935295445612 20;D 109018491074704188 20;D 102405466725212798 20;D 965420891545134073 21;D 913086263680061401 21;D 866094026164200114 21;D 823670767215136127 21;D 785184720409605662 21;D 750114902903617345 21;D 718027954082118397 21;D 688560530297969939 21;D 66140576559739223 20;D 636302746871364353 21;D 613028250747708433 21;D 591390196365313957 21];
 (* 3.5 *) [D 469847035201623517 18;D 62807093111329288 18;D 226034137016670519 19;D 118313835837166798 19;D 751747166624260828 20;D 535140879626642483 20;D 409544476237316748 20;D 329191406979038236 20;D 274018966064817637 20;D 234083440124292823 20;D 203978145732816222 20;D 180543245451041514 20;D 161822329020300678 20;D 146545697610809552 20;D 133856499037143976 20;D 123157161406475035 20;D 114019094481268001 20;D 106127396521427707 20;D 992457908597313801 21;D 931937027968872844 21;D 87830866692393431 20;D 830467417366115141 21;D 787530789203492902 21;D 748786013119811408 21;D 713651313473233632 21;D 681647276838563892 21;D 652375385206893965 21;D 625501713378125633 21;D 600744401925487011 21;D 577863926776322698 21;D 556655465354934066 21;D 536942852047496751 21];
 (* 3.6 *) [D 463677401944206322 18;D 60604677707904689 18;D 214569875939474314 19;D 11105724378117305 18;D 700227058326785757 20;D 49578767780719663 19;D 377957251548598174 20;D 302926670194794469 20;D 251601084471202911 20;D 214561971011276863 20;D 186709056178472822 20;D 165071935419260163 20;D 147816981932462176 20;D 133757264386430324 20;D 122093596347828147 20;D 112269729077466693 20;D 103887410648918249 20;D 966544870395897425 21;D 903520557856090148 21;D 848130304636496484 21;D 799077699101500287 21;D 755342113315132077 21;D 716109503508072014 21;D 680722945912594421 21;D 648646668138802359 21;D 619439484931771498 21;D 592734900587192445 21;D 5682260116428665 19;D 545653915703485656 21;D 524798714973072443 21;D 505472463349821294 21;D 487513585700908073 21];
 (* 3.7 *) [D 457722396925483523 18;D 585133608723167745 19;D 203806156954879638 19;D 104296691901487065 19;D 652488619739210191 20;D 459465531164723324 20;D 348887594024056412 20;D 27880892909172895 19;D 231051525586756099 20;D 196692336208231699 20;D 170919154178711237 20;D 150939133880945521 20;D 135033436787541605 20;D 122092334142513648 20;D 111370320920801266 20;D 102349548603959135 20;D 946599134714586574 21;D 880303375032698072 21;D 822579953487167744 21;D 771882676849434506 21;D 727013233349804664 21;D 687029202297648653 21;D 651179625467500121 21;D 618859010229474895 21;D 589573920330530929 21;D 562918327818462746 21;D 538555168703001194 21;D 516202360935090818 21;D 49562207852575727 20;D 47661243319307746 20;D 459000957844889048 21;D 442639453810654149 21];
 (* 3.8 *) [D 451971252447459716 18;D 56526379025170279 18;D 193695217393875317 19;D 979958379483842933 20;D 608240982996097494 20;D 425933113335304982 20;D 322129876456815162 20;D 256659369516057569 20;D 212212283832145257 20;D 180333110464461816 20;D 156480514895817753 20;D 138028108841528056 20;D 123364383912971805 20;D 111451633185228361 20;D 101594330313763969 20;D 933103149319204621 21;D 862556022727598351 21;D 801786433400677604 21;D 748914909586594785 21;D 702510499807685694 21;D 661465478465019247 21;D 624909573802657019 21;D 592149975966928427 21;D 562628560835024134 21;D 535890855668491912 21;D 511563167314540516 21;D 489335483799469809 21;D 468948524369250539 21;D 450183813703050506 21;D 432855990119510928 21;D 416806784327045918 21;D 401900261550553322 21];
 (* 3.9 *) [D 446413853882527473 18;D 546374285175286006 19;D 184192787316386427 19;D 921211310415241348 20;D 567216413887980845 20;D 394968792360434456 20;D 297495586074915406 20;D 236314291588905311 20;D 194938875545274464 20;D 165355094831952184 20;D 143276366311109315 20;D 126232377942673945 20;D 112711993346289984 20;D 101744703727796252 20;D 926815200089820444 21;D 850734532923128769 21;D 786007573693923507 21;D 730299805909626573 21;D 681869456542633537 21;D 639392108496545179 21;D 601843690456522246 21;D 568420495245259436 21;D 538483314069457345 21;D 511517652220665649 21;D 487104898534217565 21;D 464901100304137465 21;D 444621111500849005 21;D 426026597915462668 21;D 408916851223853627 21;D 393121676148111317 21;D 378495826530022975 21;D 364914611862437561 21];
 (* 4.0 *) [D 44104069538121084 17;D 528406320615595825 19;D 175257821619930709 19;D 866415899015389677 20;D 529168425529288713 20;D 366368992611272549 20;D 274811878731322501 20;D 217623816829221811 20;D 179099170445613641 20;D 151640251087751734 20;D 131200110224233115 20;D 115454803229434674 20;D 102987073175447435 20;D 928891175640959799 21;D 845552856696466786 21;D 775674244432919562 21;D 716282836085790765 21;D 665211837762114368 21;D 620846929117477821 21;D 581962186076562388 21;D 547610796031469103 21;D 517050468569506615 21;D 489691407469325521 21;D 465059305923183517 21;D 442768561206930625 21;D 422502576300677542 21;D 403999062825046796 21;D 387038930124162488 21;D 371437783511844566 21;D 357039346430119994 21;D 343710318830362417 21;D 331336319989740891 21];
 (* 4.1 *) [D 435842838806517484 18;D 511305077322873459 19;D 1668522534086595 17;D 815285991494737835 20;D 493870048815492694 20;D 339946695019915792 20;D 253920256712554751 20;D 200450706961839879 20;D 164572324908716272 20;D 1390807296673234 18;D 120154429695490224 20;D 105606766271849994 20;D 94108302936149403 20;D 848097601497085756 21;D 771458516909764375 21;D 707270925441697479 21;D 652771132552606622 21;D 605947801521313533 21;D 565304591644478795 21;D 529706645010300959 21;D 498278506541523156 21;D 470334556883073395 21;D 445330554172062008 21;D 422829211705066195 21;D 402475310777666294 21;D 383977417846878154 21;D 367094257125553455 21;D 351624417791839704 21;D 33739848497438246 20;D 324272956314457646 21;D 312125490340457753 21;D 300851159634960417 21];
 (* 4.2 *) [D 430811875648124345 18;D 495019403366245999 19;D 158940766892138206 19;D 767557221733230917 20;D 461112246438672118 20;D 315530063797652196 20;D 234675359491238516 20;D 184669284683134534 20;D 151247808118958022 20;D 127577982854109018 20;D 11005047525955961 19;D 966074164765453788 21;D 860015353467587013 21;D 774381787644282037 21;D 70389660070451295 20;D 644931499994424922 21;D 59491662849398409 20;D 551984752359972473 21;D 514748751443015517 21;D 482157974156412847 21;D 453402877574094623 21;D 427850138102401588 21;D 404997514038757391 21;D 384441822769806712 21;D 365855815440858244 21;D 34897120668146997 20;D 333566038128245506 21;D 319455142895155432 21;D 306482861756647925 21;D 294517416625145894 21;D 28344651909594066 20;D 273173910044604054 21];
 (* 4.3 *) [D 425939891689163391 18;D 479501549624374953 19;D 1514905882268739 17;D 722985291874837423 20;D 430702458360903347 20;D 292961188840469412 20;D 216943857677333763 20;D 170164447509912295 20;D 139024512956812937 20;D 117041955702991482 20;D 100807122922877324 20;D 883829860651547246 21;D 785991602649378476 21;D 707119890003898854 21;D 642288141616783408 21;D 58811594124253338 20;D 542213391432279421 21;D 502846849426080132 21;D 468730316013008472 21;D 438891009334928105 21;D 412580273472240041 21;D 389213046530338362 21;D 368325812628327655 21;D 349546808845792174 21;D 332574535296662839 21;D 31716200201576132 20;D 303105010535220414 21;D 290233319321598858 21;D 278403901219419236 21;D 267495739221623804 21;D 25740576765986892 20;D 248045676168729341 21];
 (* 4.4 *) [D 42121943421632775 17;D 464706925355976487 19;D 144471292845141483 19;D 681344392267071594 20;D 402463267677574664 20;D 272094933953559983 20;D 200603441270717693 20;D 156830766615055215 20;D 127809944195339103 20;D 107390347842490981 20;D 923502975796005148 21;D 808661657800871243 21;D 718395252994499705 21;D 645743343385687663 21;D 586105723675582469 21;D 536332509491301186 21;D 49420089672294268 20;D 458101100998712188 21;D 426840753623464249 21;D 399519088749970003 21;D 375443699793226014 21;D 354074066869752888 21;D 334982383219424205 21;D 317825834296096367 21;D 302326626005464553 21;D 288257360363559311 21;D 275430167667395871 21;D 263688520829947727 21;D 252900993474850434 21;D 242956446022503813 21;D 233760274120373157 21;D 225231456622081974 21];
 (* 4.5 *) [D 416643481580515841 18;D 450593872269192816 19;D 137854627936128376 19;D 642425749220243128 20;D 376231176746385694 20;D 252797881877026733 20;D 18554189409145149 19;D 144571663262737636 20;D 117519477235203765 20;D 985479399082481515 21;D 846123560480538031 21;D 739955359094332462 21;D 656664080103037793 21;D 58973394048151537 20;D 534868872750956498 21;D 489133419059492439 21;D 450459939177995457 21;D 417353494959060397 21;D 388708420591645267 21;D 363690558183174264 21;D 341659470100165535 21;D 322115748429386713 21;D 304664516024591353 21;D 288989631429367153 21;D 274835126548661077 21;D 261991629182454032 21;D 250286283340316572 21;D 23957516431049687 20;D 229737499870557931 21;D 220671217153277287 21;D 212289474866783714 21;D 20451793651461112 20];
 (* 4.6 *) [D 412205414930392648 18;D 437123455636694637 19;D 131614348854755228 19;D 606036290029826437 20;D 351855484320155097 20;D 234947367871525838 20;D 171656246969937615 20;D 133298656102807699 20;D 108075681204212751 20;D 904459789139411534 21;D 77531524445817799 20;D 677150477063930015 21;D 600285350851827033 21;D 538619350724140672 21;D 488139861404153967 21;D 446110895226835153 21;D 410608913847642184 21;D 380245479602022873 21;D 353995221895349882 21;D 331085594075474346 21;D 310924176555425852 21;D 293049510232486769 21;D 277097086452537983 21;D 262775341927242128 21;D 249848404994217214 21;D 238123489139463245 21;D 227441543639026506 21;D 217670224808132956 21;D 208698545631927277 21;D 200432756128942732 21;D 192793137714569518 21;D 185711484342952059 21];
 (* 4.7 *) [D 407898991955183335 18;D 424259271120731402 19;D 125726068334599578 19;D 571997415591531617 20;D 329197255209695703 20;D 218430594331668044 20;D 158852002923273061 20;D 12293067317372001 19;D 994077007910870675 21;D 830216173700955785 21;D 710513850917270512 21;D 61973550718796422 20;D 548791442939080847 21;D 491969039551191925 21;D 44551989001982605 20;D 406893586050972166 21;D 374300432540885113 21;D 346450762995041664 21;D 322393574801132036 21;D 301413315526177474 21;D 282961936577138765 21;D 266613010422007687 21;D 2520300368564376 19;D 238944101791901587 21;D 227137838566335906 21;D 216433722133472583 21;D 206685396501200494 21;D 197771160943383945 21;D 189589015977691478 21;D 182052852024744377 21;D 175089485932351186 21;D 168636334061447364 21];
 (* 4.8 *) [D 403718322485826271 18;D 411967266080006502 19;D 120167117473939502 19;D 540143871749476272 20;D 308128374723367814 20;D 203143819542532025 20;D 147042428131859312 20;D 113393423001267518 20;D 914506916788551964 21;D 762174014206807766 21;D 651204085511387366 21;D 567243619449906858 21;D 501755853992482176 21;D 449390552165835996 21;D 406645610360160734 21;D 371143297023399213 21;D 34121824569847362 20;D 315672401982250064 21;D 293623647954033689 21;D 274409158883251839 21;D 257521890356957593 21;D 242567755793253382 21;D 229236088551027768 21;D 217278847476689658 21;D 206495706498373449 21;D 196723184312528139 21;D 187826599054052735 21;D 179694031337996468 21;D 172231736934351759 21;D 165360620441460565 21;D 159013495523556717 21;D 153132935199680304 21];
 (* 4.9 *) [D 399657845815392672 18;D 400215574229049318 19;D 11491641754876577 18;D 510322711259781068 20;D 288530680788370757 20;D 188991614286010486 20;D 136147903066702173 20;D 104618819670887163 20;D 84145304894987081 20;D 699808036859537066 21;D 59691526830682283 20;D 519248730971320297 21;D 458789565450614929 21;D 410526129116431908 21;D 371185960736665408 21;D 338552019432546563 21;D 31107444198822479 20;D 287640154559905872 21;D 267430850884935205 21;D 249832491001863477 21;D 234375926341666846 21;D 220696929498367364 21;D 208508663010760829 21;D 197582322914275184 21;D 187733276127203382 21;D 178810965235574002 21;D 170691444498972813 21;D 16327178444094067 20;D 156465823808917995 21;D 15020090675346788 20;D 144415349747986161 21;D 139056455479879115 21];
 (* 5.0 *) [D 395712309610513542 18;D 388974362611428075 19;D 109954361784342955 19;D 482392338930860106 20;D 270295167260747403 20;D 175886180543817992 20;D 12609532860734512 19;D 965444571986939852 21;D 774372158071863069 21;D 642637968813620508 21;D 547217440837332255 21;D 475361925849851025 21;D 419537729546110648 21;D 37504962395672991 20;D 338839284774624049 21;D 308839225937863031 21;D 283606900498828687 21;D 262108071737587959 21;D 243583551173011146 21;D 22746443943159453 20;D 213316613874671955 21;D 200803416977608308 21;D 189659993095169013 21;D 179675269019713849 21;D 170679064484108382 21;D 162532716063584363 21;D 155122152015733543 21;D 148352705774841069 21;D 142145181853079168 21;D 136432836654004545 21;D 131159036350080107 21;D 12627542182694194 20];
 (* 5.1 *) [D 391876750295519059 18;D 378215689931375905 19;D 105262706288134446 19;D 456221633123054775 20;D 253321252481354884 20;D 1637467270373167 18;D 116817582437149029 20;D 891131289344484081 21;D 712766938691335795 21;D 590224646297752197 21;D 501717815111927024 21;D 435228191356356019 21;D 383676650556916896 21;D 34266369592228297 20;D 309330708273137654 21;D 281749409255427045 21;D 258576972686529637 21;D 238852307170572736 21;D 221870998573961731 21;D 207105919776563525 21;D 194155324095131505 21;D 182708011998505451 21;D 172519406903931205 21;D 163394778937379227 21;D 155177259268743876 21;D 147739131240471945 21;D 140975404681218931 21;D 13479900809695757 20;D 129137145080101005 21;D 123928500397070706 21;D 119121074305052502 21;D 114670486969859462 21];
 (* 5.2 *) [D 38814647480016237 17;D 367913375364809228 19;D 100824469412194227 19;D 431689137359003279 20;D 237516107638167857 20;D 152498896794945526 20;D 108253021410415726 20;D 822723881018583838 21;D 656182095626729342 21;D 542166462009002538 21;D 460057534366372673 21;D 398523442397409011 21;D 350911034074964887 21;D 313097252991668247 21;D 282409750962910601 21;D 257049842034964904 21;D 235767373300301885 21;D 21766912482203748 20;D 202101437308705709 21;D 188575842275128733 21;D 176720521920120015 21;D 166247786342706559 21;D 156931768459193231 21;D 148592803836819518 21;D 141086284574013937 21;D 13429456955441447 20;D 128121021780227459 21;D 122485551306854126 21;D 117321240491942742 21;D 112571758392304217 21;D 108189358113959267 21;D 104133310018340662 21];
 (* 5.3 *) [D 384517043570234199 18;D 358042877040871682 19;D 966238388729729135 20;D 408682316316756986 20;D 222794039955309177 20;D 142074242349694432 20;D 100345025958077088 20;D 759741459211302374 21;D 604200752948992396 21;D 498096122002137219 21;D 421908718031168957 21;D 364951808655125649 21;D 32097148039223337 20;D 286103122914680947 21;D 257848152055298995 21;D 234528537989948551 21;D 214980261394168761 21;D 198373086707297443 21;D 184100389419357952 21;D 171709481283587547 21;D 160856213504688503 21;D 151274608186982302 21;D 142756060861322905 21;D 1351347954574825 19;D 128277498074666158 21;D 122075801768719387 21;D 116440753140987975 21;D 11129868014737231 20;D 106588066150496306 21;D 10225715694981823 20;D 982621087857603165 22;D 945655404736946316 22];
 (* 5.4 *) [D 380984254748136658 18;D 34858117944955925 18;D 926460860113473214 20;D 387096870954268451 20;D 209075926149871515 20;D 132409744545146003 20;D 930415829384573369 21;D 701743040683961649 21;D 556441172930255256 21;D 457677684926080682 21;D 386971765831746757 21;D 33424316109759388 20;D 293612200243702895 21;D 261455931803694852 21;D 235437890378434539 21;D 213992396144623485 21;D 196035494247283338 21;D 180795404402563164 21;D 167709093655281738 21;D 156356992836366326 21;D 146420535000520255 21;D 137653795593394672 21;D 129864098879935455 21;D 122898472868928473 21;D 116634007613608358 21;D 110970873190198294 21;D 105827184267356017 21;D 101135168847888976 21;D 968382725945579335 22;D 928889440071420583 22;D 892469216489549498 22;D 858778961086651809 22];
 (* 5.5 *) [D 377544129437629076 18;D 339506689090150008 19;D 888774866259826686 20;D 366836107950247884 20;D 19628869198230259 19;D 123447371272210601 20;D 86294903649809992 20;D 648324185091930179 21;D 512553757992262336 21;D 420603858854944793 21;D 354972898161807642 21;D 306150856630353954 21;D 268608933094006723 21;D 238950171716918281 21;D 214989381626611508 21;D 195265511700696976 21;D 178769038568867205 21;D 164782439482595525 21;D 15278308576607058 20;D 142382066807322224 21;D 133284469729227248 21;D 125262892766750017 21;D 118139359136925793 21;D 11177270206341761 20;D 106049596228778241 21;D 100878070613278804 21;D 961827420739229083 22;D 919012628594406498 22;D 879816380731971586 22;D 843801756098337314 22;D 810599020469202872 22;D 779893260361882294 22];
 (* 5.6 *) [D 374192897973535809 18;D 330799137729511499 19;D 853052478592593917 20;D 347810359045953259 20;D 184364834077980333 20;D 1151336727726366 18;D 800610740045276354 21;D 599113920009434087 21;D 472218311040944687 21;D 386593533144029362 21;D 325661911897645272 21;D 280449681550680348 21;D 245757049927028321 21;D 218398440329712249 21;D 196329836823151778 21;D 178187638516827745 21;D 163031524780243684 21;D 150194339398670602 21;D 139190907363441095 21;D 129660701425391936 21;D 121330682063156669 21;D 113990557866651127 21;D 107475917123488181 21;D 101656478042324762 21;D 964277456702083015 22;D 917049840497567816 22;D 874187919691665213 22;D 835118087395441793 22;D 799362289457141999 22;D 76651904769890944 21;D 736248807982709713 22;D 70826251090321288 21];
 (* 5.7 *) [D 370926987123262128 18;D 322439492689290224 19;D 819174406572945565 20;D 329936446238386013 20;D 173241980519436387 20;D 107419410432263176 20;D 742997341234883914 21;D 553771927945808607 21;D 435141531729461083 21;D 355389524730663653 21;D 298810132667661108 21;D 256933976188562325 21;D 22486982411102287 20;D 199629837307394648 21;D 179301767528805503 21;D 162612789549481299 21;D 148686931452863817 21;D 136903796532739753 21;D 126812931681984088 21;D 118080089014222675 21;D 110452457375737857 21;D 103735552187191171 21;D 977774812787673328 22;D 924580000064260711 22;D 876807493711186472 22;D 833676545362755216 22;D 794548178841034064 22;D 758894640689655943 22;D 726276373966521861 22;D 696324450998159512 22;D 668727020541989786 22;D 643218743714793799 22];
 (* 5.8 *) [D 367743008152541549 18;D 314409873626867012 19;D 787029373643830077 20;D 313137189110480079 20;D 162862487003084403 20;D 100259216249153289 20;D 689737848450952331 21;D 511985972800565996 21;D 401054728157989241 21;D 326756520112931237 21;D 27420854627326541 20;D 235415924686444729 21;D 205776855380380519 21;D 182488503373594674 21;D 163761624630279436 21;D 148407962836404215 21;D 1356113881510962 19;D 12479491927675516 20;D 115540295630225503 21;D 107537602839873178 21;D 100552738394762 18;D 944058214490885556 22;D 889565152530166501 22;D 840938311215460781 22;D 797289066669699073 22;D 757898001125612681 22;D 722176776176560281 22;D 68963980031030581 21;D 659882893388678628 22;D 632567023223839166 22;D 607405768659341667 22;D 584155554694973637 22];
 (* 5.9 *) [D 364637745692975407 18;D 306693475317124608 19;D 756513540477703503 20;D 297340950890820389 20;D 153173065623636085 20;D 93611280401346427 20;D 640491188591503198 21;D 473469545162811216 21;D 369711725311338899 21;D 300479195891897631 21;D 251666093489634386 21;D 215723995297792617 21;D 188322633311937369 21;D 166832289324581779 21;D 149578558728418542 21;D 135451981725065125 21;D 123692085992258444 21;D 113762204997979613 21;D 105273928488213324 21;D 979398758725020139 22;D 915432491745092634 22;D 859176607954669972 22;D 809334402912467497 22;D 764881351133673307 22;D 724997908101606196 22;D 689021127906356889 22;D 656409265723771949 22;D 62671549963357805 21;D 59956816035280512 21;D 574655673934423687 22;D 551714963936212305 22;D 530522424781801551 22];
 (* 6.0 *) [D 361608147353658497 18;D 299274495980826782 19;D 727529971813180635 20;D 282481220116605611 20;D 144124443595800286 20;D 874370645579638944 21;D 59494374372580583 20;D 437959707647426447 21;D 340886953170419857 21;D 276360502269231596 21;D 231008113870753492 21;D 197701517884955409 21;D 172365227890634665 21;D 15253154338329235 20;D 136633291223544586 21;D 123634439068036215 21;D 112826286203563688 21;D 103709605670936939 21;D 959236684847028695 22;D 892019631056373123 22;D 833436987044580632 22;D 781949558513685139 22;D 736359104118739728 22;D 695719826556641959 22;D 659275840124882321 22;D 626416199954637458 22;D 596642035918577179 22;D 569542178085083853 22;D 544774835668002305 22;D 52205365553437893 21;D 501136992488731054 22;D 481819564595750838 22];
 (* 6.1 *) [D 358651314023545994 18;D 292138070741032944 19;D 699988143465771154 20;D 268496225031170125 20;D 13567104944832874 19;D 81701038777572001 20;D 55280709393828833 20;D 4052151230911431 19;D 31437369892470033 20;D 254220095265090422 21;D 212074925454993077 21;D 181205386481069847 21;D 157775095867115083 21;D 139468006327219231 21;D 124817086176157111 21;D 112854736034651946 21;D 102920417835115397 21;D 94549677792869315 21;D 874074592839855371 22;D 812465798378411804 22;D 758810569008199642 22;D 711684929055586935 22;D 669981537256738808 22;D 632827211614362427 22;D 599524733689918798 22;D 569511045569507899 22;D 542326731900563782 22;D 517593409497693091 22;D 49499674815697502 21;D 474273561482750116 22;D 455201879723297715 22;D 437593235103535729 22];
 (* 6.2 *) [D 355764490815236588 18;D 285270209821726495 19;D 673803486372759791 20;D 255328578083405284 20;D 127770724431795448 20;D 763704400206923864 21;D 513815948869389366 21;D 375014249919865113 21;D 289982509072761478 21;D 233892904672678288 21;D 194720528426222024 21;D 166104875859268399 21;D 14443399261834184 20;D 127533804771194487 21;D 114030813913428772 21;D 103021207031750003 21;D 938892565877835269 22;D 862028089597679051 22;D 796506191367856705 22;D 740034090133335036 22;D 69088896389054216 21;D 64775331907700685 21;D 609603738496286365 22;D 575634021723834097 22;D 54520102081152088 21;D 51778577877477254 21;D 492965189883552894 22;D 470391024263787076 22;D 449774191254108512 22;D 430872785365067866 22;D 413482901095295201 22;D 397431500310940614 22];
 (* 6.3 *) [D 352945058604552237 18;D 278657741132955024 19;D 64889696478458413 19;D 242924948112700791 20;D 120384457070318639 20;D 714150504706331009 21;D 477726251963550339 21;D 347153690356924411 21;D 267539728438488837 21;D 215227825906778047 21;D 178811421841260006 21;D 152280562034726452 21;D 132233980140460443 21;D 116630533847825733 21;D 104184098163681585 21;D 940503229934808841 22;D 856551774419841733 22;D 785965141711564201 22;D 725851761080609427 22;D 674084713467736552 22;D 629067940869258513 22;D 589582365504010379 22;D 554682059236776036 22;D 523622610743321697 22;D 495810709098972343 22;D 470768013933379092 22;D 448104836532798843 22;D 427500679837243685 22;D 408689652441217018 22;D 391449398322246174 22;D 375592597676464761 22;D 36096037206153033 21];
 (* 6.4 *) [D 350190526123711584 18;D 272288256914482539 19;D 625194685946647086 20;D 231235758001237655 20;D 113476138960255479 20;D 668069940097582706 21;D 444313442804646505 21;D 321446678381755474 21;D 246886164261906063 21;D 198086524943630357 21;D 164225523496487679 21;D 139623337519711466 21;D 121076522639017907 21;D 106668421312618217 21;D 951945392395904179 22;D 858659659979834077 22;D 781474744346524329 22;D 716647955601246708 22;D 661492633930022641 22;D 614035525286835368 22;D 572797871441190185 22;D 536651562292925983 22;D 504722222410661897 22;D 476322443495346905 22;D 45090485254234059 21;D 428028518971511245 22;D 407334510609978787 22;D 388527838327307089 22;D 371363935645511322 22;D 35563840625428128 21;D 341179159161191446 22;D 327840310710416659 22];
 (* 6.5 *) [D 347498522569044835 18;D 266150064135436356 19;D 602627538828102572 20;D 220214905757135047 20;D 107012340077091391 20;D 625205493381588674 21;D 413370864170761767 21;D 297721695480179271 21;D 227875864555778201 21;D 182342346497742844 21;D 150851183883041661 21;D 128033512966638648 21;D 110871661942701267 21;D 975655658146122477 22;D 869870064628429416 22;D 783987688034517583 22;D 713017415330332354 22;D 653475598163480246 22;D 602865692765083395 22;D 559356823271720089 22;D 521578782909335307 22;D 48848755150054024 21;D 459274829595961988 22;D 433305800157120384 22;D 410075436739148737 22;D 389177266957120281 22;D 370280668079800759 22;D 353114113727208905 22;D 337452640401597333 22;D 323108351778101806 22;D 30992314039479093 21;D 297763048792809403 22];
 (* 6.6 *) [D 344866790687104269 18;D 260232138370876042 19;D 581130859649355448 20;D 209819507158483932 20;D 100962101996560468 20;D 58531978349564763 20;D 384708301583653827 21;D 275821203260576238 21;D 21037500086066289 20;D 167879316445710281 21;D 138586285978833479 21;D 117419997576334064 21;D 101537265659681065 21;D 892472427230403942 22;D 794929936344088808 22;D 715855134734821309 22;D 650593091007615637 22;D 595900880891847109 22;D 549458367858766261 22;D 509566608734501325 22;D 474955860997471025 22;D 444659842834649837 22;D 417931277758409758 22;D 394183873003750374 22;D 372951640583131319 22;D 353859849476856095 22;D 336603935442479295 22;D 320933954770641551 22;D 306642964917147812 22;D 293558229151400841 22;D 281534480640432989 22;D 270448707847536225 22];
 (* 6.7 *) [D 342293180305705876 18;D 254524080897785369 19;D 560644122139269624 20;D 200009658240970149 20;D 952967475686151438 21;D 548193684962826997 21;D 358150644172956401 21;D 255600482953354629 21;D 194260846390062556 21;D 154591230295341961 21;D 127337423353583289 21;D 107699551324758797 21;D 929983416265650108 22;D 816452714918391108 22;D 726500319109085678 22;D 653685837867811404 22;D 593667309490100125 22;D 54342553630138002 21;D 500804085359215587 22;D 464226278474340661 22;D 432515360728692084 22;D 404776922622504747 22;D 380320048211409873 22;D 358603219610345704 22;D 339196439921748973 22;D 321754218614245359 22;D 305995979297888168 22;D 291691632541288138 22;D 278650803211644459 22;D 266714683308128532 22;D 255749797645132206 22;D 245643181314794978 22];
 (* 6.8 *) [D 339775642278912 15;D 249016078772843527 19;D 541110650617707758 20;D 190748216051769006 20;D 89989705704257554 20;D 513624879818998293 21;D 333536656629718981 21;D 236926572672172329 21;D 179420841341013372 21;D 142380820217090018 21;D 117019149726463769 21;D 987961026772747113 22;D 85186412774449653 21;D 746974390820910476 22;D 664011549537981769 22;D 596954666040694155 22;D 541753174177462355 22;D 495595828632957863 22;D 45647812674305106 21;D 422936706694474885 22;D 393880888429153656 22;D 368482716702005081 22;D 346103333804278509 22;D 326242539907683978 22;D 3085035218539056 20;D 2925677273818635 20;D 278176663090221156 22;D 265118504803947828 22;D 253218109247727924 22;D 242329466814151535 22;D 232329931146096307 22;D 223115758931164995 22];
 (* 6.9 *) [D 337312222817248617 18;D 243698867672608773 19;D 522477354150247254 20;D 18200059622075255 19;D 850163500464070127 21;D 481426527183197129 21;D 310717852896134613 21;D 219677294101539073 21;D 165751737860476473 21;D 131158993810115166 21;D 107553293720556332 21;D 906401260205197257 22;D 780389470596697776 22;D 683469744524082375 22;D 606944116787327283 22;D 545182977996187218 22;D 494407103434543198 22;D 45199855962716072 21;D 416093862062718665 22;D 385334681582281376 22;D 358710021103178699 22;D 335453374981537611 22;D 314973973458044177 22;D 296809747472962344 22;D 280594481213342215 22;D 26603444122961311 21;D 252891464653997173 22;D 24097053160701033 21;D 230110503471047866 22;D 220177130968450777 22;D 211057712800977408 22;D 20265697031699379 21];
 (* 7.0 *) [D 334901058176559283 18;D 238563697293574833 19;D 504694480160842384 20;D 173734586017768593 20;D 803538503977806093 21;D 451426040731838473 21;D 289557463035407643 21;D 203740360993270225 21;D 153158817810324083 21;D 120844138372928086 21;D 988683331093655305 22;D 831680735530114238 22;D 714988375831961814 22;D 625420695732420234 22;D 55482422351644173 21;D 497934487602260579 22;D 45122496143749399 21;D 412257433706581399 22;D 379299323156084776 22;D 351089664373569618 22;D 326691232501718072 22;D 30539434835894849 21;D 286652665992115929 22;D 27003930815000391 21;D 255216273393215835 22;D 241912695765886703 22;D 229909130608218555 22;D 219026019049315809 22;D 209115099440514815 22;D 200052929468870169 22;D 191735941651298419 22;D 184076627513145821 22];
 (* 7.1 *) [D 332540369680844635 18;D 233602299125055444 19;D 487715386015850205 20;D 165920171672722577 20;D 759810358720047615 21;D 423463965155952413 21;D 26992948545419523 20;D 189012562509762938 21;D 141555177069052099 21;D 111361484993519818 21;D 90898823352885371 21;D 76321856841175248 21;D 655139284564173545 22;D 572354428270795487 22;D 507219741595241933 22;D 454811498141054462 22;D 411838535895327157 22;D 376029750132869963 22;D 345774086055732816 22;D 319900841648103626 22;D 297541098001197093 22;D 278037731365495643 22;D 260885437750511968 22;D 245689821557323653 22;D 232138900037687957 22;D 219982878111807548 22;D 209019545848108608 22;D 199083570231740388 22;D 190038530287794269 22;D 18177091505248103 21;D 17418554615755902 21;D 167202048095215319 22];
 (* 7.2 *) [D 330228459056234436 18;D 228806856422123442 19;D 471496327210141343 20;D 158529378834238804 20;D 718782688195835896 21;D 397392943429572479 21;D 251717817315876243 21;D 17539901505067443 20;D 130861070651627575 21;D 102642527270902042 21;D 835848756785041275 22;D 700483736716602299 22;D 600365823660767999 22;D 523839410260583771 22;D 463736527310345009 22;D 415451472793973027 22;D 375912331447664593 22;D 343003392639315131 22;D 315226434625641383 22;D 291494444262634548 22;D 271001752949719006 22;D 253139846331367055 22;D 237441340866804838 22;D 223541823280515557 22;D 211153306278988715 22;D 20004541138219815 21;D 190031798383702219 22;D 180960224345098883 22;D 172705156612058671 22;D 165162211327816013 22;D 158243915595441047 22;D 151876442191327095 22];
 (* 7.3 *) [D 327963704054900268 18;D 224169976218977002 19;D 455996260893830524 20;D 151536125133545767 20;D 68027328658591503 20;D 373076767402698016 21;D 234815456591495475 21;D 162812476746273763 21;D 121003313424675493 21;D 946244899332629555 22;D 768716803793254738 22;D 642990762172596378 22;D 550232861508991391 22;D 47948176614974948 21;D 424015063979780382 22;D 379523911196930732 22;D 34314065035386372 21;D 312894089708154822 22;D 28739077998951893 21;D 265621308744777947 22;D 246838581445746409 22;D 230479047077887697 22;D 216110361124022507 22;D 203395787578258249 22;D 192069470153403788 22;D 181918923669749537 22;D 172772421590327672 22;D 164489766599241388 22;D 15695543911094753 21;D 150073443656545675 22;D 143763385191626881 22;D 137957448270602558 22];
 (* 7.4 *) [D 325744554349251862 18;D 219684663235217763 19;D 441176663577268624 20;D 144916083903607153 20;D 644113048116414065 21;D 350389504859334732 21;D 219123769751561452 21;D 151172719300049076 21;D 111914731646700242 21;D 872498430313737539 22;D 707090713828735654 22;D 590295768858629945 22;D 504342910300862377 22;D 438921969339583369 22;D 387727402761690905 22;D 346727504648196668 22;D 313244934648538592 22;D 285442921088246486 22;D 26202531262114199 21;D 242054659168008653 22;D 224838114611933237 22;D 209853722148211971 22;D 196701516289012783 22;D 185070312277692544 22;D 174714666605123246 22;D 165438584618602262 22;D 157083797584661473 22;D 1495211932899549 20;D 142644460787283375 22;D 136365314431042352 22;D 130609860819984675 22;D 125315803967793217 22];
 (* 7.5 *) [D 32356952767817865 17;D 215344295538687211 19;D 427001361943055531 20;D 138646558180032953 20;D 610144980163631543 21;D 32921469675499002 20;D 204551819610470443 21;D 140405952319218811 21;D 103533660976029906 21;D 804658577629783211 22;D 650511284899169679 22;D 541992885426948495 22;D 462332844222765304 22;D 401831826939386451 22;D 354574375059006556 22;D 316787545015523619 22;D 285971346266859757 22;D 26041404835520241 21;D 238909866063583235 22;D 220588089524949591 22;D 204806119332979882 22;D 191080479411589288 22;D 179041127548000236 22;D 168400469212111653 22;D 158931890099394124 22;D 15045459422613175 21;D 142822706936958894 22;D 135917317745365705 22;D 129640584967785195 22;D 123911309445694686 22;D 118661570387843374 22;D 113834139478674001 22];
 (* 7.6 *) [D 321437206228409496 18;D 211142601838795319 19;D 413436375777618323 20;D 132706364180528325 20;D 578223293368182374 21;D 309444618873225702 21;D 191015748300320528 21;D 130444295688391853 21;D 958034869661359935 22;D 742242003278750785 22;D 59855813999277355 21;D 497710960884351158 22;D 423870905653550637 22;D 36791173071925388 21;D 32428305230353604 21;D 289453564631344618 22;D 261088563760893171 22;D 237592649322589979 22;D 217843973150298837 22;D 201033728431246711 22;D 186565860158718077 22;D 173992495532982514 22;D 162971248257377708 22;D 153236305077361177 22;D 144578421330912391 22;D 136830809921618436 22;D 129859011289239032 22;D 123553504205497482 22;D 117824236637911483 22;D 11259652328650313 21;D 107807930230103798 22;D 103405882212514783 22];
 (* 7.7 *) [D 319346233235276195 18;D 20707364029375935 18;D 400449772111954596 20;D 127075723524096966 20;D 548212562584414971 21;D 29097960262161933 20;D 178438210776039972 21;D 121225295922189778 21;D 886722244120811436 22;D 684805605271806742 22;D 550846407227036203 22;D 457110566422064265 22;D 388653973950617371 22;D 336888150642692448 22;D 296604431070436722 22;D 264497186504850282 22;D 23838577615470053 21;D 216783037937477073 22;D 198645097334008244 22;D 18322056964222951 21;D 169956518647985734 22;D 158438015305158735 22;D 148348235665834741 22;D 139441478967181349 22;D 131524524843477455 22;D 1244434992508068 20;D 118074456683323131 22;D 112316517879750347 22;D 107086795747941463 22;D 102316592776928103 22;D 979485159071939942 23;D 939342624331729264 23];
 (* 7.8 *) [D 317295309788287817 18;D 203131778723915404 19;D 38801152973201817 19;D 121736163510391806 20;D 519986952996643573 21;D 273727410127564452 21;D 166747854642527068 21;D 112691482780324691 21;D 82092132225966901 21;D 631943121065160646 22;D 507023686566678538 22;D 419881258211691167 22;D 356405073658399344 22;D 308511349465520289 22;D 271311323446870559 22;D 241710166035985841 22;D 217670856238313718 22;D 197806952952979846 22;D 181147023304899201 22;D 166992953364320728 22;D 154831755859656493 22;D 144278987208208277 22;D 135041452574044156 22;D 126892024104751277 22;D 11965226558496429 21;D 11318020665803738 21;D 107361586523207646 22;D 102103480508470396 22;D 973295921902567103 23;D 92976728528638808 22;D 889921277815270889 23;D 853314105689285472 23];
 (* 7.9 *) [D 315283191827960479 18;D 199311676131329994 19;D 376093413284429809 20;D 116670424833939254 20;D 493429506197256923 21;D 257602659197229363 21;D 155878842450027507 21;D 104789962746282862 21;D 760193608060224402 22;D 58328202104005893 21;D 466767278175331387 22;D 385739078296903506 22;D 326871101027714993 22;D 282553298803923486 22;D 248196434374370277 22;D 220902607105433815 22;D 198768697194782564 22;D 18050200017955322 21;D 165198392512245504 22;D 152209184706468349 22;D 141058404997555814 22;D 131389822804361052 22;D 122932087088395032 22;D 115475222429550171 22;D 108854433518859133 22;D 102938723913494541 22;D 976227541137555607 23;D 928209217365924667 23;D 884629930963102485 23;D 844908355632152163 23;D 808559426353679759 23;D 775175377320609357 23];
 (* 8.0 *) [D 313308687321307169 18;D 195608265433377911 19;D 364668856263192884 20;D 111862376157857077 20;D 468431481446717723 21;D 242526294069871729 21;D 145770412929129824 21;D 97472046261010992 21;D 70413629125790815 21;D 538480667022457511 22;D 429781649650098395 22;D 354424272726684244 22;D 299820749605538701 22;D 258805778819584321 22;D 227070609318978642 22;D 20190133695157889 21;D 181519697904614199 22;D 164720234489196887 22;D 150661370506048291 22;D 138740276856166773 22;D 128515282397836611 22;D 119656268705386417 22;D 111912079706656096 22;D 10508858173590037 21;D 990335664101374363 23;D 936261546919759994 23;D 887692256416035988 23;D 843839174987420219 23;D 804055739628558008 23;D 767807148036038913 23;D 734647433992194497 23;D 704201917704542529 23];
 (* 8.1 *) [D 31137065360428081 17;D 192016737324816015 19;D 353712852218308258 20;D 107296935017509545 20;D 444891747725111201 21;D 228425098237477417 21;D 136366477934159563 21;D 90692905868222695 21;D 652379290089181336 22;D 497225713007865192 22;D 39579612138029457 21;D 325699207913427121 22;D 275042617359268961 22;D 237078645258830705 22;D 207761237111096446 22;D 184548425644020391 22;D 165778383591108983 22;D 150326868994933939 22;D 137410434199630943 22;D 126468807691214708 22;D 117092106121525124 22;D 108974380876164412 22;D 101883147955950808 22;D 956389060017975152 23;D 90101061808383741 22;D 851580646803788085 23;D 807203653031267054 23;D 767153074245091837 23;D 730833658987245985 23;D 697753379900392286 23;D 667502197915832024 23;D 63973581882586959 22];
 (* 8.2 *) [D 309467994880286342 18;D 188532525189215975 19;D 343201853578003965 20;D 102959994566634487 20;D 422716222542211694 21;D 215231245909009934 21;D 127615252135790667 21;D 84411262670313192 21;D 604582542733265581 22;D 45922972724049339 21;D 364562751088289704 22;D 299346467873942714 22;D 25234347935239385 21;D 217198249029781888 22;D 190110794151383397 22;D 16869983723589605 21;D 15141214967020453 21;D 137199099963129647 22;D 125331268230982583 22;D 115287879562495872 22;D 106688512391214373 22;D 992495919706320752 23;D 927558996960826803 23;D 870414504025791059 23;D 819763700731582135 23;D 774577093819103161 23;D 734028950460977346 23;D 697449840074241863 23;D 664291719931040835 23;D 634101892613115538 23;D 606503333351194143 23;D 581179654707842072 23];
 (* 8.3 *) [D 307599659864639378 18;D 185151290986464714 19;D 333113677523081098 20;D 988383557171451981 21;D 401817353800735653 21;D 202881888981847522 21;D 119468912752552453 21;D 785890987153752932 22;D 560433526278721311 22;D 424229016605948318 22;D 335854400267078183 22;D 275167116537898894 22;D 231546711403141828 22;D 199005994819218403 22;D 173975517412010644 22;D 154224200835469184 22;D 13830011776024244 21;D 125225037048703634 22;D 114319760579825721 22;D 105100172914098281 22;D 972131609982116111 23;D 903958632438045692 23;D 84449027012293751 22;D 792191532815481076 23;D 74586261033327762 22;D 704553325032253091 23;D 667502220834319613 23;D 634092469483357674 23;D 603819464505389758 23;D 576266672651326153 23;D 551087408170665116 23;D 527990914916588554 23];
 (* 8.4 *) [D 305764639565554556 18;D 181868912048437922 19;D 323427418394955525 20;D 94919664259338857 20;D 382113641308028078 21;D 19131877664246455 20;D 11188328683858701 20;D 731913931382608846 22;D 519644983866110116 22;D 391981635948535074 22;D 309462966740100219 22;D 25297911069962035 21;D 212490851446594364 22;D 182357026450974785 22;D 159224194784990266 22;D 141001690891442558 22;D 126332093800371224 22;D 114302729382367123 22;D 104281088487759916 22;D 958170852534901283 23;D 885829216129543021 23;D 823349133537287891 23;D 768885733584437621 23;D 72101938056040867 22;D 678641575503236917 23;D 640875284629391765 23;D 607018279655604329 23;D 576502166896559652 23;D 548862307227735331 23;D 523715422267624201 23;D 500742708089583368 23;D 479676950927366557 23];
 (* 8.5 *) [D 303961965192900388 18;D 178681468719935143 19;D 314123366158646463 20;D 911923525818922294 21;D 363529194807165405 21;D 180487904956108498 21;D 10481756385332643 20;D 681858800636823184 22;D 481952842320347413 22;D 362265566431733192 22;D 285197768946852289 22;D 232615850457497431 22;D 195028286495058774 22;D 16711902778058986 21;D 145737062351146145 22;D 128923006945693909 22;D 115407619130004085 22;D 104339278893158416 22;D 951288865384766359 23;D 873579477539525756 23;D 807221336645711002 23;D 749955170671160802 23;D 700072672811499827 23;D 656260786791357341 23;D 617495298713492798 23;D 582966631523337039 23;D 552027135683868916 23;D 524153017069449123 23;D 498916413985604962 23;D 47596462918323914 22;D 455004483573334813 23;D 435790388053470951 23];
 (* 8.6 *) [D 302190706186563224 18;D 175585232786567235 19;D 305182930478503439 20;D 876455856410325163 21;D 345993325651435873 21;D 170339194022985101 21;D 98234031429375406 21;D 63542826448505881 21;D 447114304104656448 22;D 334877048436242347 22;D 26288406881469845 21;D 213924855141446291 22;D 179024054161481014 22;D 15317112891635082 21;D 133404799073586098 22;D 117888443980128231 22;D 105435106203964182 22;D 95250033026455043 22;D 867844894912869335 23;D 796493124710363541 23;D 735619331217806141 23;D 683128675184426702 23;D 637439166637932308 23;D 597336228601688452 23;D 561873452181479345 23;D 530303476170614849 23;D 502028948717642139 23;D 47656714623704191 22;D 45352405094647631 22;D 432575089371583557 23;D 413450634079390545 23;D 395924960004936671 23];
 (* 8.7 *) [D 300449968356824519 18;D 17257665663553844 18;D 296588569998125854 20;D 842692108558543636 21;D 32944016947828575 20;D 160826190477984962 21;D 920978324293219062 22;D 592348281950316879 22;D 41490609881485167 21;D 309629055745755419 22;D 242361721223736715 22;D 196766553782881431 22;D 164354748685628666 22;D 140402908463470261 22;D 122127610266515111 22;D 107807045278885294 22;D 963310513660408039 23;D 869578497243110583 23;D 791762431307214326 23;D 726243037908252236 23;D 670396401129798624 23;D 622279962503356463 23;D 580428579820746365 23;D 543718677768404902 23;D 511275675652395933 23;D 482409598172647102 23;D 456569448738026496 23;D 433310326686900181 23;D 412269360288285563 23;D 393147841245341145 23;D 375697789351252091 23;D 359711727107071059 23];
 (* 8.8 *) [D 29873889212967622 17;D 169652363099193604 19;D 288323726446946617 20;D 810537116321128083 21;D 313808337451842044 21;D 151905793293812602 21;D 863767415418444331 22;D 552366230084375585 22;D 385122880699481123 22;D 286349898916841653 22;D 223483939117342352 22;D 181013180142580874 22;D 150907522291170119 22;D 128713483313891305 22;D 111814391961380639 22;D 985958304502995748 23;D 880193177843477733 23;D 793924281777676428 23;D 722388770038125848 23;D 662220283060397518 23;D 610982018739081997 23;D 566872457883789875 23;D 528534555650869577 23;D 494928834928492664 23;D 465247030232471315 23;D 438852100672922407 23;D 415235774134737654 23;D 393987984067808839 23;D 374774523533058302 23;D 357320473399810405 23;D 341397751195520103 23;D 326815642805628763 23];
 (* 8.9 *) [D 297056650890482049 18;D 166809135934831482 19;D 280372763224536141 20;D 77990164240139301 20;D 299040593838637057 21;D 143538001014928206 21;D 810409598136066753 22;D 515249186008356927 22;D 357575759848608957 22;D 264881946775631336 22;D 20611616426499331 21;D 166547763187907024 22;D 138579173511334105 22;D 118010678256361694 22;D 102381968994474789 22;D 9017909191121654 21;D 804304822712133855 23;D 724896994455015306 23;D 659129334703617467 23;D 603870378417567499 23;D 55685686011707796 22;D 516417899808935481 23;D 481296463122644995 23;D 450530797321229213 23;D 423373866623406081 23;D 399237461592458045 23;D 377652690618776151 23;D 358241570482808496 23;D 340696276873782162 23;D 32476377155081115 22;D 310234262544759159 23;D 296932436349953031 23];
 (* 9.0 *) [D 295402449419840411 18;D 164043910897640962 19;D 272720908140031162 20;D 750701977939715474 21;D 285083557860629376 21;D 135685678703276935 21;D 76062925647187041 21;D 480782349625973324 22;D 332090955751266909 22;D 245080455939152331 22;D 190135034554283267 22;D 153263204709619617 22;D 127275314858580872 22;D 10821026836654035 21;D 937544002794329975 23;D 824877537353756352 23;D 735012402738805108 23;D 661912715650700757 23;D 601442479950365085 23;D 550688408305308511 23;D 507548195291059833 23;D 470471977681416567 23;D 43829525731294208 22;D 410128120578579924 23;D 385280069918072304 23;D 363207945406532665 23;D 343479155948067274 23;D 325745269809978366 23;D 309722746160047511 23;D 295178673469708511 23;D 281920073669158178 23;D 269785782508371883 23];
 (* 9.1 *) [D 293775522415920395 18;D 161353767366719934 19;D 265354200008383877 20;D 722859570985114236 21;D 271887427934378292 21;D 128314343017543401 21;D 714171409177397072 22;D 448767595296978823 22;D 308508562887556868 22;D 226812499131171395 22;D 175427439483027976 22;D 14106143649683737 21;D 116909612886050118 22;D 992352877609948131 23;D 858623453102039888 23;D 754587873128993583 23;D 67173863835095206 22;D 604439242668678265 23;D 54883476068089372 22;D 5022145767132744 21;D 462625694659682859 23;D 428630364397556244 23;D 399149715389200271 23;D 37336023865398564 22;D 35062364657834349 22;D 330438342490514145 23;D 312405198791469661 23;D 29620300477672629 22;D 281570572181784198 23;D 268293503590671742 23;D 256194278177920836 23;D 245124731859433925 23];
 (* 9.2 *) [D 292175133097928179 18;D 158735920487006025 19;D 25825943882752562 19;D 696300681496694982 21;D 259405726556509322 21;D 121391963976711443 21;D 670800109731919848 22;D 419022141746957854 22;D 286681418903990995 22;D 209955983858527902 22;D 16188965624679873 21;D 129852650152817382 22;D 10740309430129708 21;D 910153988674724729 23;D 786424864701534381 23;D 690346787643215325 23;D 61395707789295326 22;D 551991488410767528 23;D 500856625579756979 23;D 458030161018569193 23;D 421697613913851274 23;D 390525107976009085 23;D 363513014090166065 23;D 339899209258050971 23;D 319093622359731553 23;D 300633006082473424 23;D 284149082961783129 23;D 269345718112237542 23;D 255982299590420093 23;D 243861461573076643 23;D 23281989397294494 22;D 222721377643494905 23];
 (* 9.3 *) [D 290600571885719452 18;D 156187713792602838 19;D 251424139281197194 20;D 670956060891488514 21;D 247595064234529369 21;D 11488878207702102 20;D 630296973854332198 22;D 391377330393794903 22;D 266474066727160761 22;D 194398753740860192 22;D 149426559478204853 22;D 119554593239815512 22;D 98683512351291581 22;D 834863168817503304 23;D 720370022056734163 23;D 631629435044513814 23;D 561187598847451314 23;D 504127291083255892 23;D 457098496779388303 23;D 417753829732259861 23;D 384407323211871011 23;D 355821349670396649 23;D 331069617634931298 23;D 309446755148095409 23;D 290407222803395184 23;D 273523159653173669 23;D 25845473088680233 22;D 24492890264425751 22;D 232724005248216626 23;D 22165834146940935 22;D 211581666606334294 23;D 202368737374680546 23];
 (* 9.4 *) [D 289051155150906142 18;D 153706612279441229 19;D 244836487331253917 20;D 646760654308833168 21;D 236414920989638293 21;D 108777139539899595 21;D 592459824139501743 22;D 365677503098255321 22;D 247761802707846127 22;D 180037765450375613 22;D 137950898297383725 22;D 110091925993549766 22;D 90684768206666063 22;D 765892845532089866 23;D 659930865622510644 23;D 577956837627105446 23;D 512992309083885243 23;D 460443598090690784 23;D 417187200931433573 23;D 381038291425522123 23;D 350430149464475348 23;D 324214338956396967 23;D 30153244784371507 22;D 281731574324678292 23;D 26430731051046029 22;D 248864449965389784 23;D 235089382583598549 23;D 222730357514228555 23;D 211583144022305545 23;D 201480460298307967 23;D 192284074571114031 23;D 183878829424187745 23];
 (* 9.5 *) [D 287526224035114883 18;D 151290195897487991 19;D 238485299680835246 20;D 623653323902845352 21;D 225827444075379836 21;D 103031324567932523 21;D 557101442294503767 22;D 341778971102712792 22;D 23042980356124663 21;D 166778334824430884 22;D 127382634883535836 22;D 101395633351434033 22;D 833463825371566766 23;D 702705928711532105 23;D 604625109812700405 23;D 528891852410434347 23;D 468971812418600295 23;D 420572990581250031 23;D 380782720082825891 23;D 347567244962868358 23;D 319470503409568781 23;D 295426718474855835 23;D 274640310823617987 23;D 256506894646986856 23;D 240560055770438057 23;D 226434723367442403 23;D 213841468577342285 23;D 202548149780477998 23;D 192366592060854251 23;D 183142776773612271 23;D 174749517940687623 23;D 167080926611151886 23];
 (* 9.6 *) [D 286025143331341837 18;D 148936153434818221 19;D 232359985906013606 20;D 601576591604678459 21;D 215797260663640382 21;D 9762742757718279 20;D 524048420238623342 22;D 319549067614248162 22;D 214372325484644985 22;D 154533446267209688 22;D 117648339279606528 22;D 934024874980832481 23;D 766130128930924988 23;D 644811436155611323 23;D 554012246203964501 23;D 484035494314040793 23;D 428761805971347775 23;D 384180518123390066 23;D 34757523360589922 22;D 317052603871504367 23;D 291259265724129323 23;D 269206054458537236 23;D 250155556907901763 23;D 233548250613030836 23;D 218952819256617813 23;D 206032004921296121 23;D 194518677182328898 23;D 184198762582189808 23;D 174898869423700633 23;D 166477182711747332 23;D 158816673484776317 23;D 151819970494060834 23];
 (* 9.7 *) [D 284547300424615478 18;D 146642276767815596 19;D 226450513068512663 20;D 580476399916103663 21;D 206291304348428018 21;D 925432084578675291 22;D 493140102053258106 22;D 298865277121656413 22;D 199491969396527074 22;D 14322312006230615 21;D 108680635600597727 22;D 860545565505325414 23;D 704340128933003864 23;D 591760500927983868 23;D 507689897924399737 23;D 443023584251823857 23;D 392029979715687114 23;D 350960815736879649 23;D 317282425024153514 23;D 289231970132550025 23;D 265551408755012444 23;D 245322590393469106 23;D 227861952659637216 23;D 212651462080487896 23;D 199292227446428947 23;D 187472661832619013 23;D 176946198357802068 23;D 167515412765015466 23;D 159020525605857788 23;D 151330951248024967 23;D 144339000943879563 23;D 137955131559507412 23];
 (* 9.8 *) [D 283092104288427166 18;D 144406455453568872 19;D 220747372635910636 20;D 560301889406293613 21;D 197278654408769301 21;D 877579739921809556 22;D 464227609429496699 22;D 279614435115392208 22;D 185699006755567005 22;D 132773832679738228 22;D 100417695234349822 22;D 79298755387733492 22;D 647630295712296172 23;D 543142727019882965 23;D 465290494199956219 23;D 40552369329495062 22;D 358473191271723013 23;D 320635477997406186 23;D 289647029933240731 23;D 263866334913888207 23;D 242123832572650096 23;D 223567203686783456 23;D 207562745679285227 23;D 193630796548476379 23;D 181402423191872022 23;D 170589734346124024 23;D 160965127981358524 23;D 152346522438484876 23;D 144586673005049491 23;D 137565327452557286 23;D 131183386555264373 23;D 125358501870072886 23];
 (* 9.9 *) [D 281658984533620193 18;D 142226671642204049 19;D 215241549548510301 20;D 541005191685320188 21;D 188730386855609395 21;D 832524646285004672 22;D 437172943867338302 22;D 261691992409780045 22;D 17291076088812867 21;D 1231179855826482 20;D 928027730054829687 23;D 730864349774439051 23;D 595576355514877169 23;D 498582862740121162 23;D 426478236786148543 23;D 371232356625291795 23;D 327814891402349264 23;D 292950667205050277 23;D 264434603361577247 23;D 24073798579600141 22;D 220773395981137614 23;D 20374954694995515 22;D 189078904708613194 23;D 176317298296467853 23;D 165123475470528227 23;D 155231418810017823 23;D 146431017863301958 23;D 138554330360478461 23;D 131465654758019453 23;D 125054248262099928 23;D 119228911204361897 23;D 113913907972148761 23];
 (* 10.0 *) [D 280247390506642741 18;D 140100995288440128 19;D 209924493283847768 20;D 522541236721495176 21;D 180619436364399069 21;D 790087498758553385 22;D 411848159435961936 22;D 245001338752132833 22;D 161051039182857199 22;D 114193418424186193 22;D 857837826217344578 23;D 673730068715787549 23;D 547789930210731424 23;D 457737763950990022 23;D 390946332521412272 23;D 339872533343623537 23;D 299802777870192225 23;D 267674934673392913 23;D 24143148686601334 22;D 219648601889700422 23;D 201315124872491564 23;D 185696357176183449 23;D 172247519116370159 23;D 160557269199408599 23;D 150309933806185951 23;D 141259689012731322 23;D 133212558170040614 23;D 126013630338183369 23;D 119537834617580006 23;D 11368317984767876 22;D 108365731738228085 23;D 103515832989171402 23];
 (* 10.1 *) [D 278856790434270053 18;D 138027579643091461 19;D 204788090780703652 20;D 504867573455934747 21;D 17292046826565557 20;D 750101316418613577 22;D 388134600413452587 22;D 229453180847617651 22;D 150049611904022657 22;D 105942962876998915 22;D 793129080400976391 23;D 621175998311407593 23;D 50391546725902494 22;D 420293621729977854 23;D 358414468523729269 23;D 311191290329607819 23;D 27420665731127582 22;D 244597236076338179 23;D 220442957432760664 23;D 200417519924855134 23;D 183580581907885119 23;D 169249917608575199 23;D 156920343298943699 23;D 146210887421900773 23;D 136829514173230965 23;D 128549043166249825 23;D 121190380145973773 23;D 114610625010224709 23;D 10869449767486575 22;D 103348061630558262 23;D 984940650333102299 24;D 940684378466263952 24];
 (* 10.2 *) [D 27748667061208716 17;D 136004657006570114 19;D 199824641094543665 20;D 487944202747208654 21;D 165609759830702641 21;D 712410548917743658 22;D 365922198590878098 22;D 214964970335301384 22;D 139841733734718319 22;D 983140336592619793 23;D 733462476806230668 23;D 572827458064616351 23;D 463627434660465962 23;D 385963431279361696 23;D 328626508633828202 23;D 28495769029256605 22;D 250816496600827308 23;D 223525123500717191 23;D 201291541868256434 23;D 18288015591729498 22;D 16741638295891342 22;D 154266658475626458 23;D 14296247284506212 22;D 133150951451721812 23;D 124561904402855623 23;D 116985365065061522 23;D 110255968132620939 23;D 104241884441972516 23;D 988368517595989186 24;D 93954347151199407 23;D 89523265368043851 23;D 854846725018629634 24];
 (* 10.3 *) [D 276136534634196706 18;D 134030534727675236 19;D 195026831665615786 20;D 471733421752187879 21;D 158665090149494959 21;D 676870250562978465 22;D 345108825453183164 22;D 20146037762301899 21;D 130367704489713345 22;D 912582536149483949 23;D 678434886809140566 23;D 528340927399031675 23;D 426627757844943163 23;D 354484680949110665 23;D 301348391604567407 23;D 260960865920415312 23;D 229440646842765791 23;D 204283098409678239 23;D 183815481833341699 23;D 166886568410764248 23;D 152682847060577975 23;D 140615884024844544 23;D 130251140509534758 23;D 12126173807559052 22;D 113397678202954131 23;D 106464888998682186 23;D 100310670891305441 23;D 948133999353052919 24;D 898751202849461981 24;D 854161328966035883 24;D 813709865207627347 24;D 776854688929430799 24];
 (* 10.4 *) [D 274805902661777768 18;D 132103591432100656 19;D 190387716089527852 20;D 456199678916730237 21;D 152065637952341732 21;D 643345316616669207 22;D 325599694841313698 22;D 188868807829473159 22;D 121572465738368318 22;D 847311099744338964 23;D 627676086264522917 23;D 487401418784356616 23;D 392643477461530698 23;D 325617242100860759 23;D 276366213263599848 23;D 239008263644424613 23;D 209904224621961507 23;D 186711111138671447 23;D 16786733601024697 22;D 152300150554748762 23;D 139252767826674907 23;D 128178614425639785 23;D 118674621127987842 23;D 110437963938417753 23;D 103237307897368785 23;D 968932589485916736 24;D 91264803150856332 23;D 86239724334376055 23;D 817277181514576623 24;D 776553670092655337 24;D 739624208031876365 24;D 705990080843308737 24];
 (* 10.5 *) [D 273494310728271882 18;D 130222273466153398 19;D 185900693288077486 20;D 441309438812101294 21;D 145791886777855328 21;D 611709776976643237 22;D 307306812059314478 22;D 177124955393981744 22;D 113405230352964504 22;D 78691639166805952 22;D 580846024129448338 23;D 449720074844938062 23;D 361424608878993316 23;D 299141442238100815 23;D 253484476450190773 23;D 218924042003848411 23;D 192047636530694522 23;D 170663193835152544 23;D 153312707107410631 23;D 138996439428546551 23;D 127010295368504748 23;D 116846532149237089 23;D 108131235592499003 23;D 100583841270844731 23;D 939902668930945977 24;D 881846734660437857 24;D 830368291330246326 24;D 784431909083614162 24;D 743205030945315287 24;D 706011305435038739 24;D 672296079567625131 24;D 641600547803713102 24];
 (* 10.6 *) [D 272201310079112563 18;D 128385091542160877 19;D 181559487985456415 20;D 427031056110439508 21;D 139825536935923272 21;D 581846142779153891 22;D 290148465719606643 22;D 166168394199993132 22;D 105819142249286086 22;D 731021377793788441 23;D 537632320987342489 23;D 415031970169050596 23;D 33274218588386057 22;D 274856305374820501 23;D 232524493960841222 23;D 200547610929909237 23;D 175725234230040883 23;D 156006214926463657 23;D 140029082513014545 23;D 126862032067510309 23;D 115849918749178416 23;D 106521023375754501 23;D 985284449059964111 24;D 916122192273357961 24;D 855742137044557922 24;D 802611084135855752 24;D 755526205633275807 24;D 713532036182095355 24;D 675860955590190956 24;D 641889846091400389 24;D 611108074900444657 24;D 583093530067166408 24];
 (* 10.7 *) [D 2709264665440452 16;D 126590617572958873 19;D 177358132401749764 20;D 413334658045526917 21;D 134149423757265244 21;D 553644801823446263 22;D 274048758921765745 22;D 155943200320132371 22;D 987709638163487675 23;D 679278974647573413 23;D 497747977896386701 23;D 383094100210415948 23;D 306386472594315297 23;D 25257794502507771 22;D 21332293104466723 22;D 183732299484772441 23;D 160804088444239543 23;D 142618744268162873 23;D 127904778414228089 23;D 115793598598374759 23;D 105675539907261503 23;D 9711230583535057 22;D 897820261494792087 24;D 834438030563245304 24;D 779142501086931537 24;D 730516104675114528 24;D 687447823608347967 24;D 649055922337862049 24;D 614632608194870014 24;D 583603773546513851 24;D 555499286263183307 24;D 529930773310373239 24];
 (* 10.8 *) [D 269669359940206005 18;D 124837481683701312 19;D 173290949081940841 20;D 400192034753975467 21;D 128747441660493349 21;D 527003459043179723 22;D 258937176637187852 22;D 146397604730172347 22;D 922207887426326781 23;D 631369617830109335 23;D 46092927766920758 22;D 353683541200748405 23;D 28216532900463054 22;D 232138096481415271 23;D 195730475179676791 23;D 168344140698770059 23;D 14716287132151288 22;D 130390019096885712 23;D 116837978114528069 23;D 105696983755571524 23;D 963996308032451752 24;D 885386352692527102 24;D 818153229379941155 24;D 760064440320621091 24;D 709422466847095131 24;D 664916549274802084 24;D 625520398233470827 24;D 590420263666760065 24;D 558963476412030886 24;D 530621052977491854 24;D 504960125671300138 24;D 481623345128582036 24];
 (* 10.9 *) [D 268429583504242283 18;D 123124369390021332 19;D 16935253478445238 19;D 387576536937010938 21;D 123604473603820918 21;D 501826618549820043 22;D 244748186426156643 22;D 137483673558817923 22;D 861317781387368437 23;D 586999031376477383 23;D 426933862228211642 23;D 326595766385981102 23;D 259902716848601324 23;D 213382776221879662 23;D 17961062194553644 22;D 154260763157912857 23;D 13469083753748817 22;D 119219001796286841 23;D 106735856114311145 23;D 964863888372227469 24;D 879424662877812227 24;D 807255834046318191 24;D 745585636156473278 24;D 692344937213795082 24;D 645962296021458903 24;D 605225619691326675 24;D 569186816902619069 24;D 537094830277901189 24;D 508347783004770672 24;D 482458240160154292 24;D 459027622645345802 24;D 437727109430528861 24];
 (* 11.0 *) [D 267206743351862277 18;D 121450018932305469 19;D 165537745358642704 20;D 375462980324631344 21;D 118706325521916988 21;D 478025104048639653 22;D 231420869846935436 22;D 129157013641259276 22;D 804699180325651158 23;D 545896181205068353 23;D 395538971085078762 23;D 301643105171004003 23;D 239437333632205734 23;D 19617105735366261 22;D 164838566796560206 23;D 141370379912530911 23;D 123286895375631469 23;D 109013521289603298 23;D 975137802777977038 24;D 88083626875179505 23;D 80231425868519762 23;D 736053809811247415 24;D 679482410528999069 24;D 630682167434513582 24;D 588198230871658138 24;D 550909660112072249 24;D 517940539794092062 24;D 488597628129146363 24;D 462325852584426848 24;D 438676036684848684 24;D 417281153370927866 24;D 397838616608224568 24];
 (* 11.1 *) [D 266000457963301802 18;D 119813218756523399 19;D 161841681545662904 20;D 363827556462310369 21;D 114039665379113403 21;D 455515614681155677 22;D 218898582130367665 22;D 12137650132865898 21;D 752037964743844336 23;D 507811397236930221 23;D 366539827275503217 23;D 278653332918921836 23;D 220621363745481956 23;D 180373950975294869 23;D 151300193439074715 23;D 129570866114759637 23;D 11285875980054261 22;D 996894906050632126 24;D 890945850987256595 24;D 804174444444750722 24;D 732003581688750008 24;D 671163199521789295 24;D 619265484665851878 24;D 574532567121995788 24;D 535617424994539372 24;D 501483333553036092 24;D 471320999610351923 24;D 444490502679892969 24;D 420479902141400239 24;D 398875252351566921 24;D 379338561661595512 24;D 361591371238842264 24];
 (* 11.2 *) [D 264810357693287246 18;D 118212805132688199 19;D 158259675641699905 20;D 352647749375862245 21;D 109591966498453338 21;D 434220313580535306 22;D 207128637889691019 22;D 114104032674516684 22;D 703043986366491394 23;D 472514650074207962 23;D 339748158251868569 23;D 257468380210765384 23;D 203319336530335201 23;D 165873384227244852 23;D 138891150337835521 23;D 118768917554872088 23;D 103322180251470509 23;D 911701938272514038 24;D 814079097047189195 24;D 734229041297546734 24;D 667890024326936127 24;D 612022095166224457 24;D 564408661895834744 24;D 523401505340696879 24;D 487753334166598211 24;D 456505236985819597 24;D 428909420562314557 24;D 404375143934005274 24;D 382430216548631102 24;D 362693137392456224 24;D 344852635735444814 24;D 32865244259737412 23];
 (* 11.3 *) [D 263636084304160788 18;D 116647659902610177 19;D 154787278966908251 20;D 341902257702815236 21;D 105351454852120284 21;D 41406644664039572 21;D 196062020815330558 22;D 107304293273513936 22;D 657449184285321563 23;D 439793969321754138 23;D 314990840306836529 23;D 237943151339147968 23;D 187407082062901779 23;D 152561266610341656 23;D 127516007623911578 23;D 108879282960823571 23;D 946002365312702495 24;D 833856362545617337 24;D 743895948110990101 24;D 670408222049486868 24;D 609424619386803422 24;D 558118811197819016 24;D 514432947775132177 24;D 476838866729766258 24;D 444181525420831133 24;D 415573915213827212 24;D 390325018323759173 24;D 367889456166858656 24;D 347831673778274141 24;D 329800050600592722 24;D 313507908125961952 24;D 29871938645555082 23];
 (* 11.4 *) [D 262477290520914275 18;D 115116708349154247 19;D 151420250087296857 20;D 331570921908870697 21;D 10130706002278526 20;D 394985989194068596 22;D 185653115469686189 22;D 100944546170175922 22;D 615005852687162016 23;D 409453991729064031 23;D 292108656078645711 23;D 219944442692651999 23;D 172770776213679895 23;D 14033863688960101 22;D 117087487357900565 23;D 998240635578957033 24;D 866226967559505455 24;D 762719521354067385 24;D 679811333543921704 24;D 61217256572518243 23;D 556107246521542593 24;D 508987380034750118 24;D 468902302583478572 24;D 434435033932701407 24;D 404515866326579934 24;D 378324237167169875 24;D 355221546181347367 24;D 334704258992125737 24;D 31637058780596368 23;D 299896432559166057 24;D 285017749052625163 24;D 271517449544701372 24];
 (* 11.5 *) [D 261333639606953566 18;D 113618917179719537 19;D 148154543740509697 20;D 321634656235950181 21;D 974483695675226328 22;D 376915318482205645 22;D 175859459448606739 22;D 949944363845904564 23;D 575485047731543365 23;D 381314628329268093 23;D 270955155582305334 23;D 203349952494145258 23;D 159306067282707386 23;D 129114883574113633 23;D 107525760723391175 23;D 915320739615336091 24;D 793254318671509047 24;D 69770864858822121 23;D 621291700085088331 24;D 559030404544241632 24;D 507482268634552735 24;D 464203452842867453 24;D 427419777113590858 24;D 395817233542646864 24;D 368405059907551821 24;D 344424101601709934 24;D 32328415578506504 23;D 304520289477292887 24;D 287761840113930351 24;D 27271005599405736 23;D 259121726305159717 24;D 246797030694957914 24];
 (* 11.6 *) [D 260204804959485507 18;D 112153292617133301 19;D 144986300419843719 20;D 312075385054135273 21;D 937655865363232455 22;D 359794909952871377 22;D 166641514315478836 22;D 8942581072149779 21;D 538675122181030477 23;D 355209840666067097 23;D 251395612027177302 23;D 188047374092498357 23;D 14691727717684055 22;D 118807032577424669 23;D 987578062916251985 24;D 839382590013952289 24;D 726498816990728727 24;D 638291949329587652 24;D 567850452167584196 24;D 510533577325560379 24;D 463134559459018979 24;D 423380569033282916 24;D 389623997076877195 24;D 360646212595338762 24;D 335529493781608076 24;D 31357144220048195 23;D 29422654379211056 23;D 27706547779026919 23;D 261746273371430645 24;D 247993527841548806 24;D 235583207172576082 24;D 224331375055152006 24];
 (* 11.7 *) [D 259090469723485612 18;D 110718878591591818 19;D 141911836574003368 20;D 302875983313650044 21;D 902494899160167924 22;D 343569055591193917 22;D 157962453841690574 22;D 842125516382223853 23;D 504380377335795781 23;D 330986517035589392 23;D 233306064427370168 23;D 173933565679446027 23;D 135516670707330004 23;D 109339096222543316 23;D 907168240142279074 24;D 769831615528578122 24;D 665425680368741738 24;D 583984115017568901 24;D 51904379764348489 23;D 466273562053486147 24;D 422685887150794643 24;D 38616676121475279 23;D 355185964593034397 24;D 328613215637999263 24;D 3055983749670342 22;D 285491504813132937 24;D 267788358321043363 24;D 252092471378544152 24;D 238088323293271934 24;D 225522019955518597 24;D 214187180197360347 24;D 203914479969299832 24];
 (* 11.8 *) [D 257990326423266081 18;D 109314755027691103 19;D 138927635383018026 20;D 294020220815077307 21;D 868913977877315374 22;D 328185602616316514 22;D 149787968204606484 22;D 793304240469964262 23;D 472419822692448203 23;D 30850344043491242 22;D 216572439693036002 23;D 160913789917206344 23;D 125023787143561846 23;D 100641478266159314 23;D 833417000711277607 24;D 706124368879245222 24;D 609546505092361802 24;D 534342235295384581 24;D 474466962722949025 24;D 42587795363018011 23;D 385791621885600039 24;D 352241465348844842 24;D 323806148089977324 24;D 299437235125937129 24;D 278347124400092445 24;D 259934372056257053 24;D 243732841516620608 24;D 229376384970509697 24;D 216573866877168219 24;D 20509120749668327 23;D 194738276577434303 24;D 185359193057060556 24];
 (* 11.9 *) [D 256904076610721443 18;D 107940036220972296 19;D 136030338073463484 20;D 28549271003637793 20;D 836831330019859679 22;D 313595711012812705 22;D 142086082901980884 22;D 747569340189897796 23;D 442626034542458809 23;D 287630340608565229 23;D 201089747513646725 23;D 148901017523051845 23;D 115364828667741392 23;D 926504300821675425 24;D 76576518129435981 23;D 647764094544410146 24;D 558415215272993341 24;D 488962071286945683 24;D 433750743179143945 24;D 389007255892808948 24;D 352137738337818319 24;D 321312708591221767 24;D 295211834539624495 24;D 272862510374102071 24;D 253535007571568249 24;D 23667271275745257 23;D 22184468669120202 23;D 208712755766984625 24;D 197008267218684092 24;D 186515395969979841 24;D 177058972892829312 24;D 168495484835425001 24];
 (* 12.0 *) [D 255831430529383064 18;D 10659386929876239 18;D 133216735738647453 20;D 277278857274126852 21;D 806169911902316565 22;D 299753628482815291 22;D 134826991240736921 22;D 704711984415124115 23;D 414844105453918364 23;D 268247023224324634 23;D 186761341913722795 23;D 137815289368973238 23;D 106472100839731812 23;D 853075535691864307 24;D 703701129598005272 24;D 59429668354224763 23;D 511624368186727782 24;D 447474658201408627 24;D 396558361821712175 24;D 355351959753130863 24;D 321438086543495579 24;D 293114549789796207 24;D 269154720318042798 24;D 248656252540988173 24;D 230942979837426432 24;D 215499735779403559 24;D 20192809047589049 23;D 189915685078916091 24;D 179214596917173969 24;D 169625819622946104 24;D 160987958517733765 24;D 153168879843897912 24];
 (* 12.1 *) [D 254772106793464264 18;D 105275432760422568 19;D 130483761631756695 20;D 269364816873809281 21;D 776857109452485464 22;D 286616481514705278 22;D 127982899348977546 22;D 664538247570333329 23;D 388930677247520062 23;D 250242569795158125 23;D 173498243881941734 23;D 127583132122138925 23;D 982835006051314397 24;D 785593467340194861 24;D 646756627129550288 24;D 545306981202760912 24;D 468801784117167108 24;D 409543208025469846 24;D 36258260492732646 23;D 324629881845493172 24;D 293431907038185513 24;D 267404749872539742 24;D 245408719126820852 24;D 226606575167636118 24;D 210371726910279062 24;D 196227329626178915 24;D 183804982201858693 24;D 172816149382163903 24;D 163032023734250842 24;D 154269095504221229 24;D 146378652607392901 24;D 139239031710777797 24];
 (* 12.2 *) [D 253725832081125116 18;D 103983935092425412 19;D 127828483902133246 20;D 261737448340145528 21;D 748824460153240676 22;D 274144081365084084 22;D 121527882743639774 22;D 626867999834509268 23;D 364753050688790762 23;D 233514602499930267 23;D 161218519950308633 23;D 118137022878907248 23;D 907420477665459949 24;D 723567882562502229 24;D 594503164839185076 24;D 500415416935447659 24;D 42960747204456693 23;D 374860285670461655 24;D 331543212760439081 24;D 296583740369868921 24;D 26788156833251818 23;D 243962651414827912 24;D 223767967365826061 24;D 206520611653718377 24;D 191639882812021286 24;D 178684370929409783 24;D 167313414356084205 24;D 157260465318074529 24;D 148314343663223557 24;D 140305818921815509 24;D 133097856937527488 24;D 126578428937611984 24];
 (* 12.3 *) [D 252692340841230325 18;D 102718613453970424 19;D 125248098746861967 20;D 254384276133333948 21;D 722007393687095284 22;D 262298743843618911 22;D 115437753562966491 22;D 59153388279989107 22;D 342188365678457015 23;D 217968608545749828 23;D 149846712034996881 23;D 10941489863522809 22;D 837954561911350649 24;D 666549576613842743 24;D 546548540873598345 24;D 459274927733785254 24;D 393730825067646671 24;D 343145234315004283 24;D 303184501542354275 24;D 270978946909913553 24;D 244570506764365602 24;D 222587248546981906 24;D 204045009123454765 24;D 188222802742773563 24;D 174582409179964338 24;D 162715186452642999 24;D 15230609943095765 23;D 143108894583639053 24;D 134928647927516795 24;D 127609287348992787 24;D 121024532134444702 24;D 115071219395036262 24];
 (* 12.4 *) [D 251671375012915116 18;D 10147873242911596 18;D 122739923951722791 20;D 247293451970911446 21;D 696344989955179199 22;D 251045121875857085 22;D 109689937643510921 22;D 558380363826727774 23;D 321122846235780068 23;D 203517319163495574 23;D 139313314248098588 23;D 101359706792600783 23;D 773957413498486727 24;D 614126880238970118 24;D 502533752375664674 24;D 421568149651555093 24;D 360888061760584622 24;D 314141827845305778 24;D 277273196252015846 24;D 247601594910841816 24;D 223301350563996838 24;D 203095430064038754 24;D 186069144565240208 24;D 171553338625004037 24;D 15904912128385002 23;D 148178154652134747 24;D 138649079827546889 24;D 130234375940494994 24;D 122754111660948202 24;D 116064341013642673 24;D 110048685978597114 24;D 104612142627367529 24];
 (* 12.5 *) [D 250662683757313042 18;D 100263582841656385 19;D 120301392797299348 20;D 240453719467715549 21;D 671779753240772068 22;D 240350049897846476 22;D 104263360686220981 22;D 527262862880034418 23;D 301451105039705967 23;D 190080138738685373 23;D 1295542927530862 21;D 939189932242777239 24;D 71498861078020822 23;D 565922483897061381 24;D 462130155725679451 24;D 387004853758641324 24;D 330819891777568402 24;D 287616130263243451 24;D 253596455485393991 24;D 226256627235236267 24;D 203894211603821737 24;D 185320380147120809 24;D 169684926969900951 24;D 156366741662674873 24;D 144903347442681921 24;D 134944434104509725 24;D 126220518690053 21;D 11852137273976552 23;D 111680893144337304 24;D 105566309485942214 24;D 100070363503676785 24;D 951055600658245152 25];
 (* 12.6 *) [D 249666023200836123 18;D 990724806292071363 20;D 1179300483076508 18;D 233854380958269875 21;D 648257401378472198 22;D 230182399208922934 22;D 991383428157444622 23;D 498046946136224673 23;D 283075502723390943 23;D 177582619955703481 23;D 12051064506922412 22;D 870445247238011187 24;D 660643867156153734 24;D 521590533522407148 24;D 425036871863722611 24;D 35531960515511002 23;D 303289385939255056 24;D 263354543724453715 24;D 23196007127844035 23;D 206766166792186895 24;D 186185129791908956 24;D 169110122513058888 24;D 15475079499691861 23;D 142530577012783899 24;D 132020709740542065 24;D 122896807267753094 24;D 114909600655405738 24;D 107864825420528607 24;D 101609133491662309 24;D 96020054558951127 24;D 90998729557100527 24;D 864645741604741642 25];
 (* 12.7 *) [D 248681156189432009 18;D 979047657731787294 20;D 115623537820455049 20;D 227485266356878584 21;D 625726668874060498 22;D 220512943475833869 22;D 942965008918822189 23;D 470607581107915214 23;D 265905557512404968 23;D 16595598117745049 22;D 112127995534169972 23;D 806919429296821804 24;D 610552020306711861 24;D 480813974394936075 24;D 390978415379009993 24;D 326269625510034235 24;D 278080032786403191 24;D 241162028500586028 24;D 212186828326145305 24;D 188967995670510081 24;D 170024656421790274 24;D 15432619508885752 23;D 141137827983639888 24;D 129924279575880895 24;D 120288015040550466 24;D 111928629092541441 24;D 104615532507212333 24;D 981691994033792688 25;D 924480476043086442 25;D 873391006066603348 25;D 82751235344745651 24;D 786102282674434839 25];
 (* 12.8 *) [D 247707852053275027 18;D 967598012815246053 20;D 113379607858927126 20;D 221336703920871841 21;D 604139122997681908 22;D 211314233642920514 22;D 897206579824903769 23;D 44482844845781363 22;D 249857401158729858 23;D 155136662597448731 23;D 104356223912023664 23;D 748204470683115965 24;D 564372275534158843 24;D 44330212173112384 23;D 359702527918091519 24;D 299632841312009892 24;D 254993965181058823 24;D 220860479646005483 24;D 194115008420819966 24;D 1727141695130132 22;D 155276564022277892 24;D 14084244347172628 23;D 12872861317371208 23;D 118438086749212609 24;D 109602246295929369 24;D 101942870955599152 24;D 952466346366545287 25;D 893476196759956729 25;D 841150980524437975 25;D 794448444121912369 25;D 752528612610188353 25;D 714707798783182876 25];
 (* 12.9 *) [D 24674588638137813 17;D 956369722213380865 20;D 111196099287114571 20;D 215399492791855113 21;D 583448991944619827 22;D 202560481559802794 22;D 853947594534559835 23;D 420601306060566444 23;D 234853277454334615 23;D 145065917989807165 23;D 971491243883594007 24;D 693925030840652642 24;D 521791681529781969 24;D 408788438464260204 24;D 330978198165441455 24;D 275206101586479311 24;D 233850341988923359 24;D 202287246502629259 24;D 177597027198658453 24;D 157869755057508791 24;D 141816671371170809 24;D 128543922494239039 24;D 117416214782389253 24;D 107972067416313194 24;D 998696450658947347 25;D 928512512543490711 25;D 867195150428359169 25;D 813210841629328538 25;D 765352443059949996 25;D 722658371928325197 25;D 68435429012034213 24;D 649810404599787218 25];
 (* 13.0 *) [D 245795040805641159 18;D 94535684798551607 19;D 10907094273137885 19;D 209664877198536979 21;D 563613004224145308 22;D 194227451690288355 22;D 813037951739754369 23;D 39782540122764236 22;D 22082107991217423 22;D 13568943914649448 22;D 904640924263572954 24;D 643735769328999143 24;D 482522818753304844 24;D 377028502378906415 24;D 304593852201900726 24;D 252803550264387182 24;D 214483871200574935 24;D 185293782409150713 24;D 16249819143612387 23;D 144311679852135725 24;D 129531773355855345 24;D 117325896177269801 24;D 107103235716982581 24;D 984352384724293001 25;D 910048769701201069 25;D 845734447905704197 25;D 789583183591552723 25;D 740177486943913502 25;D 696402604311719205 25;D 657371322152209671 25;D 622369766814224128 25;D 590817757917581868 25];
 (* 13.1 *) [D 244855102793877416 18;D 934553654821575925 20;D 107002154251995245 20;D 204124522212795373 21;D 544590238498108444 22;D 1862923603144176 20;D 774337273745556758 23;D 376406927337400342 23;D 207693925481246422 23;D 126957010333161843 23;D 842618371709055775 24;D 597318900052163451 24;D 446301682315888188 24;D 347798146311973887 24;D 280355699461824661 24;D 23225513968967276 23;D 196743462055586515 24;D 169744413103468174 24;D 148695566186942643 24;D 131927684137152249 24;D 118318666291047666 24;D 107092927229368911 24;D 977009636007394783 25;D 89744760973656018 24;D 829302725663490073 25;D 770363637873134545 25;D 718940430774617301 25;D 673722770451138489 25;D 633681149983882763 25;D 59799691999413851 24;D 566011909710659678 25;D 537191612485318771 25];
 (* 13.2 *) [D 243925865451385581 18;D 923954601705257573 20;D 104987831249849035 20;D 19877049095813901 20;D 526341983147496652 22;D 178733781679986773 22;D 737714237312134633 23;D 356258521412862104 23;D 195409761417982609 23;D 1188221903161937 21;D 785061172821776374 24;D 554381948169522618 24;D 412885742815042176 24;D 320891756545232866 24;D 258086220800734114 24;D 213405272940885703 24;D 180490994832785987 24;D 155515213329546621 24;D 136076942005766098 24;D 120615365781493897 24;D 108083260147589213 24;D 977580480480776892 25;D 89128593503236132 24;D 818252087145348176 25;D 755751368182283968 25;D 701735040345183594 25;D 654639207643382415 25;D 613252501109098503 25;D 576624075196263263 25;D 543998496604846153 25;D 514768913782835435 25;D 488442869883859621 25];
 (* 13.3 *) [D 243007127330657544 18;D 913554333975368832 20;D 103026148594179063 20;D 193595223176673642 21;D 508831604897474145 22;D 171531560600861828 22;D 703045952825239639 23;D 337298799465589797 23;D 18391100267069249 22;D 111242019716479158 23;D 731634982582585447 24;D 514655692661655158 24;D 382052169991872235 24;D 296120715803102959 24;D 237622786362763636 24;D 196111563725033017 24;D 1656001979714946 22;D 142492982091167466 24;D 124539893374308051 24;D 110281309978012432 24;D 987397699138427698 25;D 892420059035070068 25;D 813125204667869967 25;D 746079026906446494 25;D 688751209408282459 25;D 639243502506134162 25;D 59610851629587107 24;D 558226288320996049 25;D 524718562530530486 25;D 49488819435705135 24;D 468175615515915708 25;D 444127084666473174 25];
 (* 13.4 *) [D 242098692248834791 18;D 903347675763890478 20;D 101115354958226012 20;D 188591515067132736 21;D 49202442587977086 21;D 164666731037183031 22;D 670217388167007779 23;D 319451926677491648 23;D 173144197348807827 23;D 104176751631171944 23;D 68203129469326193 23;D 477892278970718317 24;D 353596205379972824 24;D 273311978446122052 24;D 218816392011270365 24;D 180243703588939961 24;D 151955623101264522 24;D 130574307843226851 24;D 113990920237675006 24;D 100840296143683791 24;D 902099790097170989 25;D 814725756438489343 25;D 741856955426214388 25;D 680303054953251913 25;D 627716509752624767 25;D 582338352852467069 25;D 542828913210571803 25;D 508152659654022739 25;D 477498326848460989 25;D 450222518989917172 25;D 425809235036291679 25;D 403840381185869263 25];
 (* 13.5 *) [D 241200369112546835 18;D 893329622790594262 20;D 992537693504868288 21;D 183752500312516939 21;D 475887608556012774 22;D 15812144022741756 21;D 639120833939908265 23;D 302647219725199963 23;D 163059718045910778 23;D 975896036348916591 24;D 635965392749827069 24;D 443863487457862373 24;D 32732967130173149 23;D 252306766524414921 24;D 20153050406574513 23;D 16568242709342683 23;D 139451709389338791 24;D 119664715683855398 24;D 10434466527966128 23;D 922145751467919632 25;D 824225683089186 22;D 743839338622806754 25;D 676870396182957288 25;D 620354702384897567 25;D 572114079564790444 25;D 530518482771625485 25;D 494327842870816893 25;D 462584622530090803 25;D 434539384270894465 25;D 409598297762968179 25;D 38728550756201033 24;D 367215744349695797 25];
 (* 13.6 *) [D 240311971749784688 18;D 883495335495237983 20;D 974397778300631719 21;D 179071632221441246 21;D 460390047966960297 22;D 151878877974377777 22;D 60965540695536339 22;D 286818778765590175 23;D 153611476966477255 23;D 914465294277368397 24;D 59317446732769436 23;D 412359144629590757 24;D 303079604651613032 24;D 232959376335794589 24;D 185640002981975771 24;D 152318566416197956 24;D 127991929372993517 24;D 109677889314414452 24;D 955232002223453265 25;D 843332105981641222 25;D 753125049033708754 25;D 679160890103490049 25;D 617609098341284653 25;D 565715390654069111 25;D 521458550043166126 25;D 483327873255441567 25;D 450175394722808469 25;D 421115629439033797 25;D 39545620660219593 24;D 372649006498457295 25;D 352255168523597457 25;D 333919650013688064 25];
 (* 13.7 *) [D 239433318748480856 18;D 873840132489473074 20;D 956718303953246637 21;D 174542666912445213 21;D 445502270810905894 22;D 145923210717000351 22;D 581726589136737381 23;D 271905146797596774 23;D 144756662972281653 23;D 857160085403413779 24;D 553415885307683154 24;D 383185665190766528 24;D 280687004896105356 24;D 215136086028039801 24;D 171030217427836906 24;D 140052187597552077 24;D 117488009134663176 24;D 100534961175530709 24;D 874553750331836287 25;D 771314785034106163 25;D 688204852700244766 25;D 620143624392941666 25;D 563566138560330579 25;D 515912867988008843 25;D 475308070915802257 25;D 44035152636974003 24;D 409980444982237509 25;D 383375909916611468 25;D 359898226024459743 25;D 339041431790174146 25;D 32040075997360733 24;D 303649003870314357 25];
 (* 13.8 *) [D 23856423330148461 17;D 864359484311643504 20;D 939484380357909516 21;D 170159647475309605 21;D 431196340889914761 22;D 140239520047072752 22;D 555245799205715709 23;D 257848994296161418 23;D 136455498816745369 23;D 803688526371167455 24;D 516465598914843867 24;D 356164713993088054 24;D 260005686624584577 24;D 198714155601888533 24;D 157596040951032589 24;D 128791801325270079 24;D 107859216307278316 24;D 921638647513657068 25;D 80076224467221334 24;D 70550320082778929 24;D 628924279791988157 25;D 566289158023427727 25;D 514279676992118953 25;D 47051705632682767 24;D 43326039628028954 24;D 4012117647720753 23;D 373387148309816344 25;D 349029135883889748 25;D 327546658101051702 25;D 308472637744023111 25;D 291433728872190375 25;D 276128360549953032 25];
 (* 13.9 *) [D 23770454305763765 17;D 855049007468632202 20;D 922681699377736262 21;D 165916889047869905 21;D 417445770495392581 22;D 134813745355379628 22;D 530129994723092206 23;D 244596827180230322 23;D 128671016975311478 23;D 753780270787949417 24;D 482116682988240342 24;D 331131977872485243 24;D 24090122781184184 23;D 183580911417197431 24;D 145241124113898316 24;D 118453641777161646 24;D 990317099710091219 25;D 84498743566379266 24;D 73326426867817154 24;D 645358430291826356 25;D 574790115194304087 25;D 517143206618233571 25;D 469328931856275873 25;D 429136271746505036 25;D 394949323493027425 25;D 365564865905711135 25;D 340071747561571712 25;D 317769389992220375 25;D 298111614050091595 25;D 28066720941998729 24;D 26509179053236244 24;D 251107397248004839 25];
 (* 14.0 *) [D 23685407997867067 17;D 845904458749827022 20;D 906296508349132396 21;D 161808964750948515 21;D 404225437334834298 22;D 129632630315088322 22;D 506301302241048521 23;D 232098716329402642 23;D 121368852608238673 23;D 70718486515346452 23;D 450177989957580642 24;D 307936038214486629 24;D 223250005708200878 24;D 169632907985766216 24;D 13387713558971857 23;D 108961007607081095 24;D 909379470255695017 25;D 774794118835794882 25;D 671518106007755073 25;D 590388668973259245 25;D 525352532104336847 25;D 472291665187218996 25;D 428330514714812071 25;D 391413784683245156 25;D 360041453181315839 25;D 333098000530314188 25;D 309739672714655169 25;D 289318409387180183 25;D 2713294759021154 23;D 255374747692317821 25;D 241136532957538307 25;D 228358618549077066 25];
 (* 14.1 *) [D 236012680201655776 18;D 836921729799136738 20;D 890315584953010131 21;D 157830692427866462 21;D 391511506629733622 22;D 124683672931753134 22;D 483686673495432719 23;D 220308047004219264 23;D 114517052309987477 23;D 663670233811398938 24;D 420472912879438254 24;D 286437335859992279 24;D 206938312963241183 24;D 156775160456191792 24;D 123423086280168699 24;D 100243659677605362 24;D 835161400989129496 25;D 710508625548832014 25;D 615029039079606735 25;D 5401450870135191 23;D 480201255367483487 25;D 431357038223496894 25;D 390935094022913329 25;D 357024689321520894 25;D 328233241345647924 25;D 303526448006118359 25;D 282122902700277509 25;D 263423079820939624 25;D 246960510566931517 25;D 232367592558542053 25;D 219351240028006048 25;D 207675271260431148 25];
 (* 14.2 *) [D 235180183906763438 18;D 828096841931792397 20;D 874726213373921629 21;D 15397712213856375 20;D 379281358040686134 22;D 119955078909232354 22;D 462217565724499845 23;D 209181286654180796 23;D 108085897407498189 23;D 623021282566093604 24;D 392838247688667067 24;D 266507220671280797 24;D 191861547219782555 24;D 144920441763976412 24;D 113804711029215822 24;D 922372706144234176 25;D 767097624876581751 25;D 651628178765875354 25;D 563345243409482382 25;D 494218051485017971 25;D 438962065631667716 25;D 393995188271902768 25;D 356824357454770468 25;D 325673054277758216 25;D 299248317150644311 25;D 276591063253705405 25;D 256977566266290067 25;D 239853157328768867 25;D 224786701024857393 25;D 211438754029596256 25;D 199538913513022583 25;D 188869450011198585 25];
 (* 14.3 *) [D 234356435190085478 18;D 819425941183424286 20;D 859516161674006871 21;D 150243524361674906 21;D 367513517099857443 22;D 115435718099209666 22;D 44182964434614888 22;D 198677769716319235 23;D 102047740668936476 23;D 585038611454096077 24;D 367123146555796235 24;D 24802707872516321 23;D 17792346799114338 23;D 133988638938689908 24;D 104953902979460643 24;D 848829216878428495 25;D 704670960206669649 25;D 597693196695789056 25;D 516054042763359635 25;D 452233682549782347 25;D 401293613920313991 25;D 359892374454977001 25;D 325708246162359428 25;D 297089329230267232 25;D 272835042395175823 25;D 252055972588919018 25;D 234081760164837012 25;D 218399196762791266 25;D 204609774847307281 25;D 192400031642516911 25;D 181520475719858963 25;D 171770376139540746 25];
 (* 14.4 *) [D 233541281941297795 18;D 810905293579612936 20;D 844673660313163841 21;D 146625378860991311 21;D 35618759085335754 21;D 111115083819011224 22;D 422462506359871135 23;D 188759498116367319 23;D 963768553756445764 24;D 549537327937156881 24;D 343188154914462533 24;D 230887530692161576 24;D 165035515161467237 24;D 123906163533584067 24;D 968081960464343751 25;D 781266429193450372 25;D 647408180982720955 25;D 548283551379694217 25;D 472778493249815957 25;D 413850713803770568 25;D 366884518946265767 25;D 328762555003552027 25;D 297322436543685387 25;D 27102798443650154 24;D 248764290827117164 25;D 229706477702574409 25;D 213233564935301973 25;D 198870668363764114 25;D 186249412059459314 25;D 175080305371339682 25;D 165133136257445945 25;D 156222833993389049 25];
 (* 14.5 *) [D 232734575725947972 18;D 802531280614777255 20;D 830187381751060337 21;D 14311836417561151 20;D 345284207436797477 22;D 106983254838120635 22;D 404059422963326932 23;D 17939095628505039 22;D 910492957937574842 24;D 516345952495547733 24;D 320904325339569615 24;D 21498769550217496 23;D 153116183930418483 24;D 114605411575606 21;D 893102913783956526 25;D 719189926691581327 25;D 594876244888280703 25;D 503015153642564912 25;D 433174267303823833 25;D 378757629812503484 25;D 335450721965819143 25;D 300344930169644968 25;D 271426047297098375 25;D 24726536216174297 24;D 226827427445622029 25;D 209347148936434436 25;D 194249240347561223 25;D 18109424526696083 24;D 169541616000136721 25;D 159323982287203874 25;D 150228907905729235 25;D 142085750226572503 25];
 (* 14.6 *) [D 231936171672163723 18;D 794300394929886756 20;D 816046421070541517 21;D 139718347695750589 21;D 334784959326528671 22;D 10303085984831692 21;D 386567099987528124 23;D 170538939594480332 23;D 860427681588412691 24;D 48530540925385673 23;D 300152402021673926 24;D 200234513892628535 24;D 142090451463700585 24;D 106024268828839569 24;D 824076240269955182 25;D 662146732874133838 25;D 546678847643635505 25;D 461536835764930802 25;D 396926811091389926 25;D 346670056249227228 25;D 306733076226570878 25;D 274401704020048417 25;D 247799551539660606 25;D 225597720937696406 25;D 206834469731771879 25;D 190800090717562666 25;D 176961584201770675 25;D 164912246396912793 25;D 154337232326240116 25;D 14498958474971556 24;D 136673257956480336 25;D 129230902994565352 25];
 (* 14.7 *) [D 231145928361588385 18;D 786209236179070739 20;D 80224027756566445 20;D 136421376288664453 21;D 324672350026892464 22;D 992490442457877181 23;D 369935454859793071 23;D 162172395204713512 23;D 813365113575499995 24;D 45626809487061813 23;D 280822070100490394 24;D 186542126888536442 24;D 131889250913231676 24;D 981056575252879257 25;D 760519663807975206 25;D 609721797093809936 25;D 502453275307307454 25;D 423527505757410787 25;D 36374875121211254 24;D 317328380237241331 25;D 280495150114936838 25;D 25071604553874631 24;D 22624287558819124 24;D 205839455292358399 25;D 188612414383250881 25;D 173903363568232119 25;D 161218439663488748 25;D 150181220622164448 25;D 140500602664822305 25;D 131948467211619134 25;D 124343882639872791 25;D 117541749155067054 25];
 (* 14.8 *) [D 23036370772435927 17;D 778254507075747574 20;D 788758837241028334 21;D 133223667441457877 21;D 314929743970343449 22;D 956294390659866817 23;D 354117408900664945 23;D 154262274388844313 23;D 769111865551963534 24;D 429097019472799115 24;D 262811264594414084 24;D 173831304678857077 24;D 122448988838688733 24;D 907971210465774335 25;D 701990652117927168 25;D 561534781470764359 25;D 46186752857123082 24;D 388693549424505209 25;D 333377528715284441 25;D 290495580492576401 25;D 256521224977203269 25;D 229090231222299702 25;D 206573667657892714 25;D 187821475159456394 25;D 17200371461517526 24;D 158509548522240705 25;D 146881337660439631 25;D 136770659328312081 25;D 127908340647699378 25;D 120083649899783841 25;D 113129593385202154 25;D 10691235866932664 24];
 (* 14.9 *) [D 229589374937953857 18;D 770433009609414317 20;D 775592356172283189 21;D 130121600889698841 21;D 305541319422651482 22;D 921641319234885436 23;D 339068693850493034 23;D 146781395477092687 23;D 727487750777631851 24;D 403665013920445224 24;D 246025534097247833 24;D 162028921733279553 24;D 113711102398488454 24;D 840504433413334741 25;D 6480830945723255 23;D 517237122774922865 25;D 42461769537308291 24;D 356766458503590534 25;D 305573240393319818 25;D 265955248679466281 25;D 234614470288404256 25;D 20934395295033008 24;D 188625721240250179 25;D 171389730600889931 25;D 156864894440841901 25;D 144484441063641444 25;D 133824262091979045 25;D 124561825737253399 25;D 116448219182691235 25;D 109288758708344373 25;D 10292930469421409 24;D 972464463906819248 26];
 (* 15.0 *) [D 228822798329737351 18;D 762741641424722832 20;D 762731444680706105 21;D 127111710702767623 21;D 296492024199623846 22;D 888456398197198784 23;D 324747671603966802 23;D 139704316626712861 23;D 688324839116836781 24;D 379853998149479983 24;D 230377454811276463 24;D 151067474351165998 24;D 105621652985833072 24;D 77821300138133367 24;D 59842426107592504 24;D 476509345539452276 25;D 390425550223492089 25;D 327500665078566036 25;D 280116669091051779 25;D 243509785045021931 25;D 214595280391253247 25;D 191312776367437509 25;D 1722475392927185 23;D 156403868771802487 25;D 1430652875752153 23;D 13170586287224306 24;D 121932526715537939 25;D 11344669036350843 24;D 106018158832490193 25;D 994670616144561034 26;D 93651114341155074 25;D 88456492326406721 25];
 (* 15.1 *) [D 228063849283053361 18;D 75517739235492552 19;D 750167052277546739 21;D 124190677798737736 21;D 287767534015003334 22;D 856668836912744767 23;D 311115166207112066 23;D 133007217685663867 23;D 651466582350844353 24;D 35755430576524084 23;D 21578609085051309 23;D 140884637152539545 24;D 98130953266699633 24;D 720689392653447086 25;D 55267201798351871 24;D 439058604734478023 25;D 359036360537351406 25;D 300671564211648679 25;D 256807486386321109 25;D 222978752905730952 25;D 196299758436513274 25;D 17484673633629927 24;D 157301026619869614 25;D 142736011236865111 25;D 130485889721584567 25;D 120062580722411838 25;D 111101753586165479 25;D 103326962964435897 25;D 965253080961313927 26;D 905305928125391757 26;D 85211467463543215 25;D 804629422760042993 26];
 (* 15.2 *) [D 227312402146707067 18;D 747737341102203401 20;D 737890453336475963 21;D 121355322863327206 21;D 279354213291466341 22;D 826211645806207057 23;D 298134307241611889 23;D 126667790474265735 23;D 61676700440483876 23;D 336664060448996609 24;D 202176497082176763 24;D 131422855312268093 24;D 911932248338619781 25;D 667558876188745874 25;D 510512279104227586 25;D 404616438213650659 25;D 330216881983406265 25;D 276073708326473249 25;D 235462612470359991 25;D 204197377930121701 25;D 179578334439050209 25;D 159809057226099954 25;D 143660298960351252 25;D 130269640818690341 25;D 119018314018119279 25;D 109453322847375812 25;D 101236943845017975 25;D 941132122190241025 26;D 878852072275890023 26;D 82399356567268196 25;D 77534396879644855 25;D 731934814911419797 26];
 (* 15.3 *) [D 226568334147697597 18;D 74041865205779353 19;D 725893233454935599 21;D 118602599649081746 21;D 271239078278037794 22;D 797021413194305371 23;D 28577038378626477 22;D 120665136860908003 23;D 584089951515020565 24;D 317088600097345701 24;D 1894792610808169 22;D 122628969605247835 24;D 847662839262787266 25;D 618476825287711438 25;D 471656671732107751 25;D 372936710864882782 25;D 303753526439400477 25;D 253519158324656997 25;D 215914719398604028 25;D 1870151794111973 23;D 164294505531731473 25;D 146074986896577737 25;D 131210598326376831 25;D 118898588134681234 25;D 108563840345238769 25;D 997858839591826161 26;D 92251632488647117 25;D 857240651677315541 26;D 800210279888733277 26;D 750006035163420927 26;D 705508326698847002 26;D 665823746763808845 26];
 (* 15.4 *) [D 22583152530706318 17;D 733218572255213047 20;D 714167276467494488 21;D 115929588632464651 21;D 263409762327821871 22;D 769038096225579517 23;D 273990708205365435 23;D 114979674055637383 23;D 553308397752740735 24;D 298739944942707784 24;D 177630081050332959 24;D 114453871574538941 24;D 788112528783507436 25;D 57312625467453761 24;D 43584039937014896 24;D 343793733965012738 25;D 279450687574787902 25;D 232835977738833548 25;D 198010865105430086 25;D 171294721860032003 25;D 15032368756264028 24;D 133530734235594934 25;D 119847305081774502 25;D 108526108865841723 25;D 990325500351504382 26;D 909763109126767523 26;D 840671195108632098 26;D 780854791709033317 26;D 728628824281738876 26;D 682681728179864964 26;D 641979746964050579 26;D 605698662619734101 26];
 (* 15.5 *) [D 225101858358709184 18;D 726134428450235234 20;D 702704752076477271 21;D 113333491007939508 21;D 25585448319977902 21;D 742204824979159741 23;D 26276448906918056 22;D 109593046589457661 23;D 524303801682485528 24;D 281536306204537295 24;D 166569376826600348 24;D 106852186357968048 24;D 732922951603763638 25;D 531215562176713313 25;D 402820284392105846 25;D 316980544669519074 25;D 257129210391584292 25;D 213866857429235593 25;D 181611246690557017 25;D 156910476288213915 25;D 137552168149173047 25;D 122072501016132796 25;D 109475038099281677 25;D 990640436081192657 26;D 903425382892137822 26;D 829481617275966803 26;D 766117704997242727 26;D 711300798022389746 26;D 663471944034569472 26;D 621418941413247661 26;D 584187223136188051 26;D 551016354359602861 26];
 (* 15.6 *) [D 224379218671095322 18;D 719163624321610007 20;D 691498104067157072 21;D 110811622999448263 21;D 248562012257416113 22;D 716467718841906844 23;D 252062712562853162 23;D 104488044487728669 23;D 49696551026152994 23;D 265401632097642395 24;D 156241931309475617 24;D 997819809134430033 25;D 68176372051590475 24;D 492476457785319108 25;D 372372975327177993 25;D 292307331874759591 25;D 236624992247496306 25;D 196467859428580626 25;D 166588062500149339 25;D 143747781490700736 25;D 125876152184027761 25;D 111605599665047297 25;D 100006835115428564 25;D 90432052890981501 25;D 824191973038611535 26;D 756318313427414732 26;D 698203804001330954 26;D 647965586926728044 26;D 60416128144273772 25;D 56567044045767386 25;D 531611560482247826 26;D 501283009277579866 26];
 (* 15.7 *) [D 223663494171664143 18;D 71230363778683881 19;D 680540039076700873 21;D 108361410470915524 21;D 241521645445748973 22;D 691775714345277641 23;D 241858031787336447 23;D 996485271834294324 24;D 471190206393551547 24;D 250265188278136307 24;D 146596559889416992 24;D 932044955707280431 25;D 634330191519060099 25;D 456662064344189162 25;D 34429330476828486 24;D 269599995882525419 25;D 217787703974182332 25;D 180507269540734209 25;D 152824473450851418 25;D 131701896500399353 25;D 115200891590656433 25;D 102043649288151305 25;D 913634061089663476 26;D 825569206157491356 26;D 751945637379377896 26;D 689639380761142964 26;D 636335947233396921 26;D 590291258843325128 26;D 550170686646281981 26;D 514938517934663857 26;D 483780665046354769 26;D 456049709940701054 26];
 (* 15.8 *) [D 222954575273898488 18;D 705552018427612962 20;D 669823515887835339 21;D 105980383818556473 21;D 234723175935792143 22;D 668080403700698701 23;D 232124663399635182 23;D 950593527505077022 24;D 44688139682860809 23;D 236061170040955627 24;D 137585805632468899 24;D 87083897009167949 24;D 59034141089200099 24;D 423545175455019866 25;D 318392785106460108 25;D 248698830384998296 25;D 200479620696631335 25;D 165864549210994844 25;D 140213654888082992 25;D 120677136168913725 25;D 105439891856526529 25;D 933078429808921105 26;D 834724531726887268 26;D 753719197737213836 26;D 686067247292249381 26;D 628867653104628159 26;D 579973830035508425 26;D 537770117489492934 26;D 501021493123675364 26;D 468770500912516643 26;D 440265261855206079 26;D 41490834474536712 25];
 (* 15.9 *) [D 222252354806900806 18;D 698906385019806433 20;D 659341735219868953 21;D 10366617312883599 20;D 228156868333173472 22;D 64533588332545861 22;D 222838291080000504 23;D 907063120693074794 24;D 42394893735961745 23;D 222728343797270743 24;D 129165658169429469 24;D 813870509181676681 25;D 549538229169046969 25;D 392916657409537866 25;D 294498230391655734 25;D 229457316281608371 25;D 184574552865628599 25;D 152429378017700431 25;D 128657931038259277 25;D 110586082541280603 25;D 96514188537958285 25;D 853262800771515604 26;D 762680509344228627 26;D 688162348567974451 26;D 625992771907738948 26;D 573477534196556849 26;D 528625597735713793 26;D 489940139747299698 26;D 456278221700401973 26;D 426754666694786534 26;D 400675003112066191 26;D 37748789162916154 25];
 (* 16.0 *) [D 221556727947392236 18;D 692364423163179741 20;D 649088129991271031 21;D 101416503586926122 21;D 221813434354301123 22;D 623498611700474223 23;D 213975975351040329 23;D 865760675653624491 24;D 402308592502659633 24;D 210209715557061083 24;D 12129529440202817 23;D 760833127413541395 25;D 511681568228714404 25;D 364583983078914655 25;D 272450493623065767 25;D 211741017746134878 25;D 16995686884179969 24;D 140100778893337457 25;D 11806798481481937 24;D 101348865342366424 25;D 883516875362406054 26;D 780333575560398023 26;D 696900821161600111 26;D 628344358760815423 26;D 57120835593226292 25;D 522990374023592864 26;D 481843487602416393 26;D 446380855343817419 26;D 415544674124501455 26;D 388516529786583485 26;D 364654930796328567 26;D 343451040832816598 26];
 (* 16.1 *) [D 220867592154034052 18;D 685923883006202239 20;D 639056356029476272 21;D 992291911214425516 22;D 215684009879865423 22;D 602527275947042486 23;D 205516069308209545 23;D 826560961898634808 24;D 381881627066718078 24;D 198452224323074761 24;D 113936839292149704 24;D 71144335037389558 24;D 4765508288598633 23;D 338369886713806907 25;D 25210330968822318 24;D 19542657179026311 24;D 156520601123793674 25;D 128786318874943825 25;D 108362136376119062 25;D 92892505484608857 25;D 808865634965138303 26;D 713692153430145016 26;D 636837233055162571 26;D 573759993613736485 26;D 521245838718186767 26;D 476970260995998469 26;D 439219863902978914 26;D 40670959918440626 25;D 37846038080814731 25;D 353715466240509186 26;D 331882261337578916 26;D 31249112572895382 25];
 (* 16.2 *) [D 220184847103978547 18;D 679582577061636423 20;D 629240283204961328 21;D 971021382721129931 22;D 209760133301372003 22;D 58238266655212698 22;D 197438139853050329 23;D 789346363350335848 24;D 362594427219425199 24;D 187406458468659478 24;D 107055145140705827 24;D 66543890111393861 24;D 443942427227283186 25;D 31411112954399589 24;D 233322235007138155 25;D 180400763325629435 25;D 144168629001169743 25;D 118401378814258911 25;D 994656844148904038 26;D 851503160461213622 26;D 740587111833987753 26;D 652792307118128698 26;D 5819897645528829 24;D 523948721305975384 26;D 475678674901688735 26;D 435020192457303085 26;D 400383610517170657 26;D 370578102556911011 26;D 344697370557530172 26;D 322041644667070732 26;D 302063462987377937 26;D 284329333569874262 26];
 (* 16.3 *) [D 219508394631560686 18;D 673338378108750879 20;D 619633986967933336 21;D 950333302678456151 22;D 204033725081907877 22;D 563027559711096507 23;D 18972289405006438 22;D 754006384006403118 24;D 344378148840380951 24;D 177026393324749951 24;D 100617587891736849 24;D 622577066818050938 25;D 413668449626346436 25;D 291657366922158992 25;D 215983675702515798 25;D 166559678416462588 25;D 132811931040308665 25;D 108868486053187368 25;D 913103046891190217 26;D 780613556595437436 26;D 67813245144967124 25;D 597135574216985988 26;D 531902420287350303 26;D 47849073996834313 25;D 434118220507648757 26;D 39677858941447888 25;D 364996848778394027 26;D 337669392493622878 26;D 313957233042530082 26;D 293213235995749603 26;D 274931599195903342 26;D 258712170582433321 26];
 (* 16.4 *) [D 21883813866904588 17;D 667189217178238967 20;D 610231740267185078 21;D 930208313034276509 22;D 198497068457468023 22;D 544426606793362127 23;D 182352110255400584 23;D 720437187490964434 24;D 327168391123964147 24;D 16726914834173622 23;D 945938791156873689 25;D 582633194491156178 25;D 385555415802200222 25;D 270870108538737218 25;D 199973996815898782 25;D 153807929045019508 25;D 122368901384487193 25;D 100116704594623554 25;D 838335007874207184 26;D 71569929699699444 25;D 621000433934101677 26;D 546267056141887822 26;D 486159300739540494 26;D 437003359251069331 26;D 396210351675488121 26;D 361916124458983835 26;D 332751951145241689 26;D 307694971367486627 26;D 285968447419741351 26;D 266973876618323439 26;D 250243913738927889 26;D 235409158177754667 26];
 (* 16.5 *) [D 218173985189353034 18;D 661133081616119003 20;D 601028005831812325 21;D 910627810037969175 22;D 193142791209943962 22;D 526546230470261263 23;D 175308573690804213 23;D 688541168061854514 24;D 310904893550438455 24;D 158094762321033486 24;D 889558924344329557 25;D 545399305260528294 25;D 359443141919959509 25;D 25162176395046972 24;D 185188705728157438 25;D 142057943287366022 25;D 112764724371965446 25;D 920810777770112949 26;D 769781025624820711 26;D 656251350660105956 26;D 568733312103310986 26;D 499771588481844869 26;D 444381058435892715 26;D 39913770464485765 25;D 361632386120407266 26;D 330132834653487463 26;D 303368823969484571 26;D 280392251334782198 26;D 260483952941762155 26;D 24309036185895676 25;D 227779635555866032 26;D 214210739168877522 26];
 (* 16.6 *) [D 217515842150675703 18;D 655168013223079358 20;D 592017428797560992 21;D 891573910654954565 22;D 18796384844732301 21;D 50935452707600875 22;D 168576016159654093 23;D 658226550825277962 24;D 295531254488655594 24;D 14946598532985968 23;D 836775032503472953 25;D 510682817741412495 25;D 335183695014893079 25;D 233794766319707525 25;D 171531703526327289 25;D 13122931532245344 24;D 103930802452952394 25;D 847021188972708388 26;D 706918080676639215 26;D 601804447272749377 26;D 520913015302917291 26;D 457270249754193895 26;D 406221668790661622 26;D 364575715662632571 26;D 330090280137450578 26;D 301155493709479117 26;D 27659243504828504 25;D 255522220541528177 26;D 237278939584448135 26;D 221350548817264218 26;D 207337983272235459 26;D 194926374820059981 26];
 (* 16.7 *) [D 21686361944292757 17;D 649292106465909116 20;D 58319482966057929 20;D 87302942065538062 21;D 182953506330790794 22;D 492821174801756083 23;D 162139059623556846 23;D 629407019075964291 24;D 280994669826774902 24;D 141348086021856009 24;D 787344407332359741 25;D 478305371698434976 25;D 312640431431502338 25;D 217280767860351261 25;D 15891459859214544 24;D 121248210177257227 25;D 958042328216511287 26;D 779253456246305657 26;D 649267651979114804 26;D 55193328535056839 25;D 477157686711194721 26;D 418417178522177246 26;D 371365487542974792 26;D 333027411584299464 26;D 301316076405503331 26;D 274735220100341308 26;D 252190563850273748 26;D 232867320106175004 26;D 216148838722196457 26;D 201561449540327381 26;D 188736351208414729 26;D 177382815305240567 26];
 (* 16.8 *) [D 216217228835941802 18;D 643503506757822378 20;D 574555197542297261 21;D 854977804285119926 22;D 178105326692291843 22;D 476917347349938404 23;D 155983163378005563 23;D 602001366835040713 24;D 267245690150067126 24;D 133708673186541247 24;D 741041511030038231 25;D 44810174395229912 24;D 291687112383015695 25;D 201979901033983332 25;D 147256077175118975 25;D 112046818548955294 25;D 883273285769065981 26;D 717008544108442061 26;D 596391895698212739 26;D 506249071205307954 26;D 437118524662841848 26;D 382896671513124752 26;D 33952456924788215 25;D 304228400827951566 26;D 275065580076732128 26;D 250645299863819946 26;D 22995175430712182 25;D 212229512795890844 26;D 19690749569757358 25;D 183547497215064582 26;D 171808660337895424 26;D 161422527746312404 26];
 (* 16.9 *) [D 215576583929356896 18;D 637800408804642609 20;D 566093683750046858 21;D 837403155432704093 22;D 173413152489703671 22;D 46161563270129836 22;D 15009457458416675 22;D 575933174800213593 24;D 254237995097891889 24;D 126517530442890653 24;D 697656713230906613 25;D 419918849139185159 25;D 272207090333037816 25;D 187800100040868784 25;D 136481326158546647 25;D 103562857445363085 25;D 814471805876235249 26;D 659829314333430719 26;D 547890154799534622 26;D 464396359708194558 26;D 400476901158987658 26;D 350420537812801451 26;D 310436223565226552 26;D 277937612159449405 26;D 251116242664151394 26;D 228679204766201578 26;D 209683451882558448 26;D 193428526045260143 26;D 179385507782352157 26;D 167148969649357043 26;D 156403859167640845 26;D 146902267449120906 26];
 (* 17.0 *) [D 21494160010412462 17;D 632181055013963037 20;D 557805595618873625 21;D 820290170210935375 22;D 168871094050137327 22;D 446889956670399242 23;D 14446028193104725 22;D 551130508054361495 24;D 241928183636105022 24;D 119746463077233344 24;D 656995123905759376 25;D 393614818533600889 25;D 254092560423361876 25;D 174656477608986183 25;D 126521503634238538 25;D 957391127504235567 26;D 751152565701356939 26;D 607296969098812127 26;D 503395770578625229 26;D 426050170371293142 26;D 366941733108684291 26;D 320725686431496743 26;D 283860788169682155 26;D 253935227907368539 26;D 229265235084151608 26;D 208648788245243004 26;D 191210308285947839 26;D 176300253540296142 26;D 163428712527385916 26;D 152220555743406781 26;D 142384560884583337 26;D 133691779269835791 26];
 (* 17.1 *) [D 214312194475578458 18;D 626643733964540629 20;D 549686390620779413 21;D 80362412087670588 21;D 164473516055009112 22;D 432715510947208329 23;D 139067972218216268 23;D 527525634000150946 24;D 230275579077172856 24;D 113369156103771522 24;D 618875514739387838 25;D 369058150698760805 25;D 237243871650350101 25;D 16247075250377858 24;D 117313253274049608 25;D 885230201554945489 26;D 69287034186865671 25;D 559027798987439202 26;D 462573169832313491 26;D 390913354605273347 26;D 336247084014924265 26;D 293571926558966204 26;D 259579598998254271 26;D 232020801129420804 26;D 209327692888524185 26;D 190382643135743695 26;D 174372638702563677 26;D 160695301021655677 26;D 148896812862450631 26;D 138630051955100446 26;D 129625804358353089 26;D 121672617238721863 26];
 (* 17.2 *) [D 21368828584800363 17;D 621186778933315023 20;D 541731670728377579 21;D 78739083101704242 21;D 16021502522344992 21;D 419068685342566741 23;D 13390598966401271 22;D 505054759100572183 24;D 219242047768796905 24;D 107361042697894714 24;D 583129322092450683 25;D 346126928236098028 25;D 221568892930539607 25;D 151170723565226686 25;D 108798258826785707 25;D 818662812022410854 26;D 639216652514471357 26;D 514670209499437006 26;D 425115203671028297 26;D 358714192140439686 26;D 308149975793029825 26;D 268739961666200612 26;D 237393140274700713 26;D 212011540295482858 26;D 191135118246824783 26;D 17372460662492711 25;D 159025017781231419 26;D 146477663261870448 26;D 135662126546684676 26;D 126257176946630952 26;D 118013927722508849 26;D 110737071653375524 26];
 (* 17.3 *) [D 213069794670652326 18;D 615808566477570464 20;D 533937177020640702 21;D 771576651933600542 22;D 156090458653345302 22;D 405927003974176693 23;D 128963297757843355 23;D 48365778310907516 23;D 208791830453482423 24;D 101699182218600162 24;D 549599725204557084 25;D 324708095371079278 25;D 206982429597643575 25;D 140689786430194614 25;D 100922835380314996 25;D 75724511461641016 25;D 589816683772981437 26;D 473902002021526884 26;D 39074071607485213 25;D 329204196537744843 26;D 282428392208337909 26;D 246029560288390088 26;D 217119358318994698 26;D 193740746525757346 26;D 17453392462852711 25;D 158532399197522288 26;D 145035001864453164 26;D 133523520354117354 26;D 123608448696904544 26;D 11499249367514456 25;D 107445544285259301 26;D 100787193839227172 26];
 (* 17.4 *) [D 212456642995150194 18;D 610507515069878653 20;D 526298784519078655 21;D 756168440161773237 22;D 1520948727818445 20;D 393269065147234604 23;D 124229443487854594 23;D 463278069568927867 24;D 198891385376767542 24;D 963621470972023188 25;D 518140793800125441 25;D 304696791539613765 25;D 193405686241006935 25;D 130966489419571785 25;D 936375543133437631 26;D 700569181282440771 26;D 544326476365371019 26;D 436427887293577332 26;D 35919232221363374 25;D 302156111484588963 26;D 258879457059144169 26;D 225257887850119496 26;D 198592124577999594 26;D 1770563897634836 24;D 159384111397786688 26;D 144676385524448139 26;D 13228196607776157 25;D 121720142525304906 26;D 112630017145144177 26;D 104736429167599587 26;D 978266114553914702 27;D 917339096706358396 27];
 (* 17.5 *) [D 21184875443424243 17;D 605282083783573922 20;D 518812497243304577 21;D 741153536064275842 22;D 148223532929553043 22;D 381074484700115139 23;D 11969452378701493 22;D 443862231450128602 24;D 18950924229127112 23;D 913299179255476922 25;D 488616699722276096 25;D 285995736531239995 25;D 180765772132689192 25;D 121944125364080903 25;D 868968991215938915 26;D 64826004541480705 25;D 502430350060429621 26;D 401977211321434163 26;D 33023437830017754 25;D 277362081181788205 26;D 23731777172416452 25;D 206257985284193243 26;D 181659834613609361 26;D 161819811481955413 26;D 145558056683083503 26;D 132038446335060281 26;D 120656045924116929 26;D 110964893663834727 26;D 102630571307626519 26;D 953983831083065648 27;D 890715842184601576 27;D 834962137594882232 27];
 (* 17.6 *) [D 211246054121830035 18;D 600130771026619623 20;D 511474443475530141 21;D 726519743442534934 22;D 144471903394842817 22;D 369323842600655672 23;D 115349154051546549 23;D 425359930874241841 24;D 180615866567780938 24;D 865837861285379933 25;D 460900987646160024 25;D 268514663104885643 25;D 168995245799289315 25;D 113570356412069517 25;D 806589495411503147 26;D 599972993584083308 26;D 46383854569127056 25;D 370301875427217888 26;D 303651126340305888 26;D 254631979597086905 26;D 217573898054333252 26;D 18887738146175581 25;D 166184130968228437 26;D 147904542636261956 26;D 132939417929842418 26;D 120510951300807377 26;D 110057173964980608 26;D 101164324641196404 26;D 935224960935211188 27;D 868959171749103678 27;D 811026454700526386 27;D 760004369573679583 27];
 (* 17.7 *) [D 210648468674248853 18;D 595052113321826427 20;D 504280871224081785 21;D 712255310112460826 22;D 140835638066786716 22;D 357998632592684858 23;D 111184438595756299 23;D 407723691953410012 24;D 17218353268371598 23;D 821062636532646101 25;D 434875900314808792 25;D 252169793323020902 25;D 15803169557778068 24;D 105796869109278879 25;D 748850916094487299 26;D 555391082965527819 26;D 428285066163020212 26;D 341174433718057066 26;D 279244998598066396 26;D 233791884699661293 26;D 199492973828427784 26;D 172976827604663623 26;D 152038738905087258 26;D 1351952265810305 24;D 121422130495705837 26;D 109995823856755343 26;D 100394203020736599 26;D 922333483146495165 27;D 852260431509965121 27;D 791540177922698959 27;D 738490062142225135 27;D 691795804889018769 27];
 (* 17.8 *) [D 210055926152746031 18;D 590044684131479675 20;D 497228143876548409 21;D 698348909394234586 22;D 137310571527162162 22;D 347081214705559073 23;D 107191942916698265 23;D 390908725839996038 24;D 164186206413849018 24;D 778809991508010615 25;D 410431754100647372 25;D 236883355152933696 25;D 147817353254166286 25;D 985790572664326378 26;D 695397515034979209 26;D 514222865430416986 26;D 395525699484589163 26;D 314386352705053091 26;D 256835067920935556 26;D 214682685010760203 26;D 182933449121575718 26;D 158429142901490227 26;D 139108405002037286 26;D 123586637595509143 26;D 110909495513971275 26;D 100403689704860677 26;D 915841080970882632 27;D 840944888329810558 27;D 776686224472585873 27;D 721044256405108739 27;D 672462692724322809 27;D 629727106440117072 27];
 (* 17.9 *) [D 209468356027110429 18;D 585107092724524393 20;D 490312736033660197 21;D 684789622468604538 22;D 133892710613778335 22;D 336554770451686491 23;D 103363667650806638 23;D 374872767148271659 24;D 156599435098528975 24;D 738927001669903633 25;D 387466361026837801 25;D 222583136161905534 25;D 138298738121688591 25;D 918757303372860065 26;D 645901511770767164 26;D 476200300884874035 26;D 365336208317244072 26;D 289746419128360253 26;D 236255631279856189 26;D 1971588069184615 24;D 167765932964978804 26;D 1451181615053177 24;D 127287929470807369 26;D 112982786494764646 26;D 101313349038552543 26;D 916531014864613776 27;D 835512599479266189 27;D 766771985353730028 27;D 707841578148535714 27;D 65685025859578108 26;D 612358507274120412 27;D 57324408511127855 26];
 (* 18.0 *) [D 208885689140415294 18;D 580237983084543193 20;D 483531229515459752 21;D 671566921554876124 22;D 130578226419074604 22;D 326403260548395642 23;D 99692024112718911 23;D 359575920969687383 24;D 149400245411127726 24;D 701270608956794085 25;D 365884493686998926 25;D 209202071388329199 25;D 129426329013456814 25;D 856488452191470571 26;D 600060839852734516 26;D 441076843923834392 26;D 337510671865766759 26;D 267079283252751116 26;D 217354914982639618 26;D 18108705221906675 25;D 153872140613120567 26;D 132937771962963345 26;D 116481283887115583 26;D 103296105568026066 26;D 925533052007211737 27;D 83669832787890963 26;D 762267638253104519 27;D 699172363408386418 27;D 645125006743017349 27;D 598392934434426679 27;D 557644538525515157 27;D 521842697370661003 27];
 (* 18.1 *) [D 208307857674833271 18;D 575436032856844537 20;D 476880309531762077 21;D 658670653868304264 22;D 127363446699520453 22;D 316611385011103486 23;D 961698113140122588 24;D 344980519758912926 24;D 142567048089357684 24;D 66570695082047925 24;D 345597389781758242 25;D 196677862705178611 25;D 121154262064354991 25;D 79863259561309873 25;D 557597086371798121 26;D 408625689223413584 26;D 31185996715555932 25;D 246224126001074138 26;D 199993891026050306 26;D 166345536272632254 26;D 141143932589449839 26;D 121791040919140045 26;D 10660080675769194 25;D 944467057790487165 27;D 845560667602407715 27;D 763862352584868525 27;D 695478575493993297 27;D 63756102077999744 26;D 587988966683815518 27;D 545157888177672571 27;D 507835907556269179 27;D 475064497568692886 27];
 (* 18.2 *) [D 207734795118485443 18;D 570699952333056752 20;D 470356761009310901 21;D 646091026316969438 22;D 124244848672827708 22;D 307164545474613148 23;D 92790194366543119 23;D 331050989419364134 24;D 136079549134744809 24;D 632110736951898562 25;D 326522293248037442 25;D 18495262720745265 24;D 11344005214049179 24;D 744865048256809052 26;D 51825359957029523 25;D 37863816233416109 25;D 288210377851205928 26;D 227033439299854329 26;D 184045194970324272 26;D 152822718003486265 26;D 129482437460463361 26;D 111589413662195049 26;D 975664700247057438 27;D 863616997949631993 27;D 77254797027147592 26;D 697406531800860987 27;D 634573635606948631 27;D 581405217071903771 27;D 535935004208893605 27;D 49667699049878998 26;D 462491474002132656 27;D 432492503526898677 27];
 (* 18.3 *) [D 20716643623328766 17;D 566028483471697171 20;D 463957465068426766 21;D 633818590900447632 22;D 121219052181370996 22;D 298048809608574863 23;D 895466841815511976 24;D 317753723964649155 24;D 129918667021154118 24;D 600364670181454478 25;D 308582029193788769 25;D 173972572352857869 25;D 106244336042643849 25;D 69488577489375139 25;D 481793750616984323 26;D 350922243670570603 26;D 266402319787924245 26;D 209371909930378109 26;D 169392136557747883 26;D 140416513745546731 26;D 118797250997996207 26;D 102251984736835606 26;D 893052102222478076 27;D 789745849850133889 27;D 705885476706548625 27;D 63676890336405108 26;D 579031900985518906 27;D 530219788435406801 27;D 488509340668053579 27;D 452524205535039368 27;D 421209880630347258 27;D 393747437785643978 27];
 (* 18.4 *) [D 206602717023758925 18;D 561420398953255982 20;D 457679395642308584 21;D 621844230774679163 22;D 118282813201508646 22;D 289250877501723325 23;D 864331183817010003 24;D 305056968176563381 24;D 124066455487088399 24;D 570358908303506838 25;D 291704610068767763 25;D 163687695766525728 25;D 99530635744405313 25;D 648417469123412117 26;D 447999336792727306 26;D 325301214527970912 26;D 246289173315416738 26;D 193115398017635598 26;D 155927795061344664 26;D 129033487633423648 26;D 109005705036515216 26;D 937048324493848245 27;D 817503185587985091 27;D 722246810539720269 27;D 645017374232859497 27;D 581437244940556852 27;D 52837877087964066 26;D 48356288404954706 26;D 445298855954550683 27;D 412311795266624069 27;D 383625956443836872 27;D 358484310311859403 27];
 (* 18.5 *) [D 206043574706758025 18;D 556874501268400982 20;D 451519616232496419 21;D 610159146949410844 22;D 115433017679709627 22;D 280758049897504578 23;D 834436433488203593 24;D 292930707721207463 24;D 11850603151773355 23;D 54199056382148642 24;D 275822870702392866 25;D 154051507787312006 25;D 932651400672559512 26;D 605203785151808873 26;D 416669114402750813 26;D 301612414904938219 26;D 227736213401514197 26;D 178150002055484027 26;D 143554192047158958 26;D 118588111879670864 26;D 100032199921894708 26;D 858804116378546907 27;D 748408847089376273 27;D 660566174514901011 27;D 589436771357560882 27;D 530944652285132116 27;D 482181827150571433 27;D 441032085865126785 27;D 405927434070577792 27;D 375686867028441601 27;D 349407445748850258 27;D 32638931158673705 26];
 (* 18.6 *) [D 20548894768211595 17;D 552389621837972711 20;D 445475276794330106 21;D 598754845586437945 22;D 112666675677528276 22;D 272558198171166865 23;D 805726973352875821 24;D 281346566222742233 24;D 113221508151606421 24;D 515163238837616812 25;D 26087413002421971 24;D 145020774986421175 25;D 874165033245683016 26;D 565007710242059498 26;D 387617450709627537 26;D 279706103775315498 26;D 210619629217669849 26;D 16437120306574309 25;D 132181534869987798 26;D 109002090861615227 26;D 918075949856325754 27;D 787169995772439121 27;D 685212895613985526 27;D 604198661324051829 27;D 538681370453113315 27;D 484865512119030426 27;D 44004707034128847 26;D 402260877062195384 27;D 370052638092637782 27;D 342328233061982068 27;D 318252033582858102 27;D 297176987827411924 27];
 (* 18.7 *) [D 204938775504132952 18;D 547964620163499556 20;D 439543610746547284 21;D 58762312586861448 21;D 109980915808532586 22;D 264639735945350433 23;D 778149945718456752 24;D 270277708829456488 24;D 108197931773357812 24;D 489786592521074245 25;D 246799877452346506 25;D 136555283029856291 25;D 819556595856696082 26;D 527610066432911461 26;D 360673085076526632 26;D 259444413245795693 26;D 194825625636180563 26;D 151683081127471796 26;D 121727524803074852 26;D 100203743472921286 26;D 84268651968380127 26;D 721581903443067325 27;D 627407425930127295 27;D 552683156379427652 27;D 492329524908234372 27;D 442811834284447864 27;D 401615492787211415 27;D 36691542779296981 26;D 337362684768668595 27;D 311943553838207909 27;D 289884640593292312 27;D 270587672671810079 27];
 (* 18.8 *) [D 204392998853910345 18;D 543598383007019475 20;D 433721932099456437 21;D 576756068411239353 22;D 107372979951288651 22;D 256991592247706298 23;D 751655103091103054 24;D 259698751839418131 24;D 103421223578964201 24;D 465775938781961018 25;D 233545482091358495 25;D 128617617385541183 25;D 768556513203528533 26;D 492808131060276971 26;D 335677990329938271 26;D 240700388759213049 26;D 180249599715792694 26;D 139997598095727651 26;D 11211672423214544 25;D 921274386799888844 27;D 77357526763238491 26;D 661524333795473113 27;D 57452859922838701 26;D 505598828272857 24;D 449996646452294859 27;D 404429911009161059 27;D 366559958490670791 27;D 334691669622009565 27;D 307573691675333345 27;D 284266739448830011 27;D 264054962905930276 27;D 246385151995844536 27];
 (* 18.9 *) [D 203851559512488303 18;D 539289823599049261 20;D 428007632696396697 21;D 566146024188968472 22;D 104840218223437901 22;D 249603186120136103 23;D 726194667342124532 24;D 249585677983199865 24;D 988781249223633317 25;D 443051871957013918 25;D 221059923025307517 25;D 121172960494836443 25;D 720914712845131719 26;D 460414366477827777 26;D 312486326101453624 26;D 223357108166025188 26;D 16679538584339624 25;D 129233940861525739 26;D 103279977827698356 26;D 84713079665567095 26;D 710213052563680878 27;D 606526123609705982 27;D 526152794511992787 27;D 462561589163376867 27;D 411331931428959864 27;D 369397274004100621 27;D 334582362210187878 27;D 305312632658093325 27;D 280427172315637645 27;D 259055585696489839 27;D 240535234746795519 27;D 224354540658478751 27];
 (* 19.0 *) [D 203314400334762091 18;D 535037880873593826 20;D 422398179563457296 21;D 555785603952854985 22;D 102380084202779198 22;D 242464402594904581 23;D 701723197078999123 24;D 239915756989196088 24;D 945561462736948433 25;D 421539918477703965 25;D 209295539123710597 25;D 114188904137435522 25;D 676399165996222195 26;D 430255250161890214 26;D 290963476595192342 26;D 207306873092285557 26;D 154374563739661198 26;D 119317919990923494 26;D 951538830507525143 27;D 779056323453714809 27;D 652115794135726579 27;D 556156608474408479 27;D 481893098075323607 27;D 423220867785586704 27;D 376015377589087041 27;D 337419922745473618 27;D 305411042696891762 27;D 278526021720999891 27;D 25568775676625596 26;D 23608962363524532 26;D 219118193603742273 27;D 204300351902395029 27];
 (* 19.1 *) [D 2027814652241502 16;D 53084151872913701 19;D 416891112362676649 21;D 545667668113487152 22;D 999901303820886608 23;D 235565569958160923 23;D 678197462710350241 24;D 230667471083042692 24;D 904435195388303164 25;D 401170212643401331 25;D 198207796900560271 25;D 1076352758190718 23;D 634794540632311116 26;D 402170197109307553 26;D 270985165856520277 26;D 192450466586566981 26;D 142905824030139975 26;D 110181419025193451 26;D 876803057499879951 27;D 716546944114483366 27;D 598840600998496274 27;D 510022114623456902 27;D 44139610121692024 26;D 387256667341338146 27;D 343755065516246054 27;D 308229799685177043 27;D 278798427267584701 27;D 254102010022505119 27;D 233141117510876647 27;D 21516816324077684 26;D 199615229551925129 27;D 186044741893851813 27];
 (* 19.2 *) [D 202252699107988929 18;D 526699725314602036 20;D 411484040944174855 21;D 535785317067481153 22;D 976680038451797291 23;D 228897438226341429 23;D 655576328727888272 24;D 22182044509676823 23;D 865291535079394771 25;D 381877194762584268 25;D 187755075078714216 25;D 101483978103815712 25;D 59590095805241827 25;D 376010567100148558 26;D 252436644193730702 26;D 178696471535245788 26;D 132314386534579879 26;D 101761890129593331 26;D 808059369758076685 27;D 659141013916700947 27;D 549982234273536873 27;D 467762756733528406 27;D 404338978981619803 27;D 354376883008473181 27;D 314284681113299961 27;D 281582490310004612 27;D 25451888695736235 26;D 231831230783663634 27;D 212592081938905699 27;D 196108513642450621 27;D 181854702037944418 27;D 169425913480913764 27];
 (* 19.3 *) [D 201728047913628923 18;D 522611512339314081 20;D 406174642992894682 21;D 526131881945799407 22;D 954114421524279499 23;D 222451158765537453 23;D 63382064275962232 23;D 213355380885683729 24;D 828025922175533085 25;D 363599330054587569 25;D 177898464615548745 25;D 957088398976565125 26;D 559532844758838737 26;D 351638750005211032 26;D 23521193993188796 25;D 165960644799350472 26;D 122531466839638394 26;D 94001892148659181 26;D 744818874723639565 27;D 606415665209234139 27;D 505169877084505317 27;D 429049514838510152 27;D 370426825138800787 27;D 32431485605046138 26;D 287361257685840899 27;D 257255127950983883 27;D 232366783362744867 27;D 211522948977389944 27;D 193862914664720745 27;D 178744363942768298 27;D 165680408935883508 27;D 154296664699240099 27];
 (* 19.4 *) [D 201207458545210142 18;D 518575914406039628 20;D 400960661765835642 21;D 516700915763508318 22;D 932182694246623412 23;D 216218264988222085 23;D 61289313097779616 23;D 205253995771788963 24;D 792539760260540246 25;D 346278846823963949 25;D 16860158304113227 24;D 902854787681545023 26;D 525517872167054274 26;D 328927322875838328 26;D 219213171161180545 26;D 154165342450525931 26;D 113493787097228715 26;D 868486674642968529 27;D 686633166148597976 27;D 557983514988655362 27;D 46406418346956861 26;D 393581565884381855 27;D 339390220801291823 27;D 296827143559789561 27;D 262763118076593101 27;D 235044485046772291 27;D 212154689985749737 27;D 193003396992433995 27;D 176791754346535378 27;D 162924310098304626 27;D 150950194068599894 27;D 140523068872327229 27];
 (* 19.5 *) [D 200690878861092613 18;D 514591988366217419 20;D 395839903915864181 21;D 507486184951667028 22;D 910863926149608782 23;D 210190654065757167 23;D 592758299472148547 24;D 19749896475175477 23;D 758740052168417047 25;D 329861492529952284 25;D 159830402048054941 25;D 85191173456774437 25;D 493695977259195215 26;D 307758273064881366 26;D 204349912584674096 26;D 143238991871949786 26;D 105143127335408622 26;D 802537543620250615 27;D 633090928390094879 27;D 513489654639447162 27;D 426354582344701746 27;D 361083847606094881 27;D 31098301609146176 26;D 271691484733864307 27;D 240287999051193621 27;D 21476523420547221 26;D 193711772435487475 27;D 176114259476558075 27;D 161231191069631357 27;D 148510514653177336 27;D 137534680642112605 27;D 127983274350610197 27];
 (* 19.6 *) [D 200178257651921216 18;D 510658812696534022 20;D 390810237398370946 21;D 498481661253054883 22;D 890137979584843959 23;D 20436056959886829 22;D 573382341224385849 24;D 190073866225444628 24;D 72653905956685786 24;D 314296306475528508 25;D 151553087353040193 25;D 804047458065810699 26;D 463918457845790434 26;D 288022282096584178 26;D 190538612975742647 26;D 133115606845353972 26;D 974259138838600019 27;D 741726318930795665 27;D 583814828647735656 27;D 472608897458663487 27;D 391756814318909832 27;D 331304834374711545 27;D 284980306084846578 27;D 248704946281415445 27;D 219751341725508044 27;D 196248363902124581 27;D 17688231325055467 26;D 160711293946244565 27;D 147046971618796952 27;D 135377487313388155 27;D 125316119181206392 27;D 11656641302211682 26];
 (* 19.7 *) [D 199669544619303561 18;D 506775486896033478 20;D 385869589457224196 21;D 489681513964403544 22;D 86998547591043519 22;D 198720585191797338 23;D 554733048343317039 24;D 182963131017566133 24;D 695853984490476173 25;D 299535407934719194 25;D 143739849925114365 25;D 759064513887625114 26;D 436047136606948998 26;D 269618065433302991 26;D 177702059126842479 26;D 123734342070478294 26;D 902928418041431476 27;D 685643944780491567 27;D 538458672494957712 27;D 435043261708060009 27;D 360010681106560136 27;D 3040145064556623 25;D 26117658392328954 26;D 227682231104877115 27;D 200984733271912524 27;D 179339735007813266 27;D 161524368385345319 27;D 146663074959579465 27;D 134116821110685269 27;D 123410975438913435 27;D 114187339590863494 27;D 106171607716416298 27];
 (* 19.8 *) [D 199164690355080809 18;D 502941130902985074 20;D 381015944686637192 21;D 481080102508703667 22;D 850387763276194769 23;D 193263588879136593 23;D 536779729242060277 24;D 176151994480488518 24;D 66660667133532563 24;D 28553379862389275 24;D 136362807743928774 25;D 716778781673768045 26;D 409953588549314067 26;D 252451763681541002 26;D 165768882511560078 26;D 1150390838608943 24;D 836985284783811946 27;D 63391453733402814 26;D 496704800183149118 27;D 400519668872177715 27;D 330877989054965935 27;D 279002495752912209 27;D 239384055503458211 27;D 208454135813569183 27;D 18383448645958262 26;D 163898765582860316 27;D 147508543567868593 27;D 133849850748958474 27;D 122329370498849399 27;D 112506954520104442 27;D 104050797910300057 27;D 967070695224753439 28];
 (* 19.9 *) [D 198663646321172061 18;D 499154884530766382 20;D 376247343165727393 21;D 472671969322008985 22;D 831326885925540412 23;D 187982768357430733 23;D 519493130459200383 24;D 169626451480613056 24;D 638723327931655896 25;D 272249178503168255 25;D 129395857315279979 25;D 677018525931865801 26;D 385518426942522026 26;D 236436381141771706 26;D 154673105193650736 26;D 106978074032546094 26;D 77601195750964627 26;D 586192652176205005 27;D 458261703139743906 27;D 368787838566963738 27;D 304140669922266785 27;D 256076392603205288 27;D 219431101525941198 27;D 190866143906080054 27;D 168160344783427006 27;D 149797232492024009 27;D 134716879796177304 27;D 12216250221085501 26;D 111583180411850699 27;D 102570709604776938 27;D 948177091828259195 28;D 880892768579651598 28];
 (* 20.0 *) [D 198166364829973654 18;D 495415906922050079 20;D 371561878662696998 21;D 464451833039965638 22;D 812785554935883771 23;D 182871596976517752 23;D 502845362844862854 24;D 163373214084019464 24;D 612134264409463349 25;D 259641773968412284 25;D 122814554229386195 25;D 639623525648181131 26;D 362630643191607756 26;D 221491267938658453 26;D 144353721802498061 26;D 995035642507146998 27;D 719623782382074977 27;D 542160779904247911 27;D 422861841855252976 27;D 339618363155145057 27;D 279599063515302485 27;D 235060199542221102 27;D 201160873946923738 27;D 17477714262932526 26;D 153834302028493235 27;D 136918179423940267 27;D 123041838204559895 27;D 111501595060077915 27;D 101785852646643187 27;D 935159994605025961 28;D 864072586432773836 28;D 802422288700340642 28];
 (* 20.1 *) [D 1976727990252954 16;D 491723376020613131 20;D 366957696905708259 21;D 456414581970054575 22;D 794747120323672388 23;D 17792382044828013 22;D 486809831850470435 24;D 157379671769507783 24;D 586773648661869149 25;D 247674177563003678 25;D 116596002101443835 25;D 604444267390868867 26;D 341186996462679278 26;D 207541642273052362 26;D 13475431465627206 25;D 925714983293933524 27;D 667466556224108694 27;D 501527050584398437 27;D 39025964797390984 26;D 312800946595320755 27;D 257070348142157704 27;D 215792919202131745 27;D 184430015019624261 27;D 160058252586575174 27;D 140739526111101081 27;D 125154921829382668 27;D 112385375407854386 27;D 101776516783918227 27;D 928532214232023069 28;D 852642960004915861 28;D 787458841324933792 28;D 730967664223713035 28];
 (* 20.2 *) [D 197182902863816483 18;D 488076488060115409 20;D 362432993917663484 21;D 448555267836252454 22;D 777195544444354478 23;D 173133444233005927 23;D 471361171677553055 24;D 151633854008680227 24;D 562579277295221505 25;D 236311198402071294 25;D 110718749283769042 25;D 571341197124768457 26;D 321091449210861917 26;D 194518149616848882 26;D 125822699354061058 26;D 861412201860623171 27;D 619214069311158108 27;D 464023129449497199 27;D 360229694881778991 27;D 288142793393992374 27;D 236387106060821086 27;D 198127264628344895 27;D 169107488156195539 27;D 14659176013664031 26;D 128769377943405045 27;D 114410140141542487 27;D 102658101230448913 27;D 92904690784783704 27;D 847086172191725986 28;D 777440921778293907 28;D 717666232916683989 28;D 665899545367139008 28];
 (* 20.3 *) [D 196696631097044347 18;D 484474457069222137 20;D 357986014412229187 21;D 440869099783494287 22;D 760115376621396243 23;D 168494721565927427 23;D 456475183056475131 24;D 146124395063424879 24;D 539492361032573049 25;D 225519722560652112 25;D 105162692784756749 25;D 540184026327247694 26;D 302254645064385123 26;D 182356455928496727 26;D 11751059837824509 25;D 801752053462178974 27;D 574565849709382721 27;D 429402287716330544 27;D 332565022437067964 27;D 265467134754800614 27;D 217396012224399365 27;D 181928481331866115 27;D 155073510791715104 27;D 134270143509866255 27;D 117826516892539514 27;D 104595053413985874 27;D 937785114528736413 28;D 848108607851155978 28;D 772821966515947823 28;D 708902721678397259 28;D 654085196742840913 28;D 606645207144019668 28];
 (* 20.4 *) [D 196213939253760549 18;D 480916514392470485 20;D 353615050248566751 21;D 433351438629961441 22;D 743491728942112571 23;D 164002142088723166 23;D 442128774440403646 24;D 140840500861131565 24;D 51745732360928773 24;D 215268582731546471 25;D 99908988872269303 25;D 5108510883350147 24;D 284593425798955496 26;D 17099687220259641 25;D 109773340450052676 26;D 74638814067244454 26;D 533245092396231421 27;D 397437633774414169 27;D 307075602721199929 27;D 244611880137373985 27;D 19995663564406977 26;D 167073271331552005 27;D 142218580298460721 27;D 122995184371352786 27;D 107822085156226523 27;D 956286662150872756 28;D 856722888698507908 28;D 774264391917292433 28;D 705103324623914115 28;D 64643538217567933 27;D 596160824450237564 28;D 552683440702674105 28];
 (* 20.5 *) [D 195734783622938109 18;D 47740190822630547 19;D 349318438942348724 21;D 425997791355823716 22;D 727310253161488328 23;D 159650421052847714 23;D 428299906413338093 24;D 135771917817244109 24;D 49642161326640851 24;D 205528436508904323 25;D 949399698781784075 26;D 483228741165336374 26;D 268030384394245423 26;D 160384007883352715 26;D 102569583566142659 26;D 695000643116942161 27;D 494996757810694253 27;D 367920491252833359 27;D 283586934816156706 27;D 225428383458806231 27;D 183940343622114644 27;D 153448810295608726 27;D 130442584788400795 27;D 112677157294909588 27;D 986749640603416593 28;D 874370822578048457 28;D 782716665551537684 28;D 706889136838148072 28;D 64335058200562726 27;D 589498890498861648 28;D 543387948184522218 28;D 503539906716790951 28];
 (* 20.6 *) [D 19525912123711547 17;D 473929903169733928 20;D 345094562230750632 21;D 41880380581763626 21;D 711557118658382549 23;D 155434489063501597 23;D 41496753912362631 23;D 130908903483382777 24;D 476335526009458742 25;D 196271652700074812 25;D 90239066756886046 25;D 457210813343905491 26;D 252493451401278225 26;D 150466450870261947 26;D 95861059813590028 26;D 647294229470132863 27;D 459585825771904966 27;D 340658911618961887 27;D 261938757643010483 27;D 207780314102421206 27;D 169229299956863905 27;D 140951849671354028 27;D 119653991361567696 27;D 103234090279099809 27;D 903110959064576916 28;D 799528788263299207 28;D 715148477759998011 28;D 645413068047659054 28;D 587035626818080253 28;D 537601451721219245 28;D 495306668296980435 28;D 458782908941734588 28];
 (* 20.7 *) [D 194786909856212718 18;D 470499779789067923 20;D 340941844689213525 21;D 411765265678132817 22;D 69621899139153433 22;D 151349482334880025 23;D 402111582566160467 24;D 126242198907302576 24;D 457152039857917688 25;D 187472205111280351 25;D 857907369839790463 26;D 432698089537672903 26;D 237915512067404232 26;D 141196472026791407 26;D 896123402161214121 27;D 602996136833714833 27;D 426795691886129091 27;D 315476310011662913 27;D 241983870836927211 27;D 191542623748958729 27;D 155715548996376208 27;D 129487896403188625 27;D 109769105013953997 27;D 945910900451331986 28;D 826628655642957707 28;D 731145365915719164 28;D 653454774978442588 28;D 589316838073992823 28;D 535677297499407029 28;D 49029516859594315 27;D 451498284289045691 28;D 418019549855981471 28];
 (* 20.8 *) [D 194318107951776224 18;D 467110834196250485 20;D 336858752397872416 21;D 404878085541668275 22;D 681283013805638788 23;D 147390733429051524 23;D 38971284954744257 23;D 121763002598430207 24;D 438826659364037581 25;D 179105573292501709 25;D 815803974119462672 26;D 409597833036130734 26;D 224234051865993492 26;D 1325297522702923 24;D 837906180070243871 27;D 561854403845680198 27;D 396426694643252646 27;D 292210213970446184 27;D 223587054493000971 27;D 176600600821737016 27;D 143300178124782875 27;D 118970463487002928 27;D 100711392016450718 27;D 866797264106612081 28;D 756685365202956906 28;D 668659198903296343 28;D 597121608737989255 28;D 538127044291963221 28;D 488837192680053285 28;D 447172109668155691 28;D 411581592544553493 28;D 380892233765625061 28];
 (* 20.9 *) [D 193852674691638376 18;D 463762377640277151 20;D 332843791655640851 21;D 398138306286047203 22;D 666736785640445201 23;D 143553762452423732 23;D 377753011177982359 24;D 117462945999684754 24;D 421317269729263963 25;D 17114864976382794 24;D 775943617283074493 26;D 387823342350472956 26;D 211390828262346489 26;D 12442513047521214 25;D 783655088549266267 27;D 523636244999540048 27;D 368294762393248654 27;D 270711115598786073 27;D 206624079402142699 27;D 162849005046204117 27;D 131892551910383082 27;D 109320385200424847 27;D 924108621212995378 28;D 794374705385294607 28;D 692717365637066245 28;D 611558029826238482 28;D 545680245254992467 28;D 491412146627634528 28;D 446115856340679942 28;D 407860730668403809 28;D 375209517702304958 28;D 347075485893806818 28];
 (* 21.0 *) [D 193390569924979533 18;D 460453736111246404 20;D 328895507740032127 21;D 39154209058193282 21;D 652568345598357578 23;D 139834268685260454 23;D 366214554746091876 24;D 113334070372771505 24;D 404583999892566995 25;D 163579653279660167 25;D 738197821877531254 26;D 367293539408310411 26;D 199331566716952866 26;D 116844370562969109 26;D 733088666885963544 27;D 488126554688136955 27;D 342230170298596546 27;D 250841418501487984 27;D 190980800113354495 27;D 150191275271498229 27;D 121409611733267625 27;D 10046519138744719 26;D 848035044492628211 28;D 728071823196580066 28;D 63420988719827039 27;D 559374382019127199 28;D 498703167977704296 28;D 448778749402533832 28;D 407149304505415572 28;D 372022617354685259 28;D 342066047524155323 28;D 316273058834799238 28];
 (* 21.1 *) [D 192931754167779802 18;D 457184249956590906 20;D 325012483710883583 21;D 385085718591463968 22;D 63876615382840002 22;D 136228122621128039 23;D 355080743836116468 24;D 109368805010178785 24;D 388589094007751761 25;D 156378047718769822 25;D 702445953141453358 26;D 347932587013592086 26;D 188005679083310035 26;D 109751946281654416 26;D 685946138769605387 27;D 455126530434815431 27;D 318076398187439178 27;D 232474471569103029 27;D 17655232381396353 26;D 138538804292590179 27;D 111775235247432985 27;D 923385356676636806 28;D 778307723635116877 28;D 66736642568452154 27;D 580692834300451705 28;D 511681622773191542 28;D 455800435112306119 28;D 409868214721771892 28;D 371605862796303403 28;D 339349520845873069 28;D 31186344384391139 27;D 28821530035035887 27];
 (* 21.2 *) [D 19247618858864868 17;D 45395327350905929 19;D 321193339256232023 21;D 378765583838117729 22;D 625319075186654411 23;D 132731358394476313 23;D 344335580562534293 24;D 105559946692735978 24;D 373296790766532854 25;D 149524466217491861 25;D 668574712906354184 26;D 329669533418382115 26;D 177366002701149822 26;D 103114842297988428 26;D 641985846215012112 27;D 424452405643749747 27;D 29568908099094057 26;D 215493682352846152 27;D 163242248618142768 27;D 127810274951200953 27;D 102919650522558377 27;D 848796728887861203 28;D 714391130489962546 28;D 611781260911431481 28;D 531736883335699524 28;D 468090374387869267 28;D 416616360480606435 28;D 374353577737465125 28;D 339183286937664201 28;D 309560659104793389 28;D 284339704664603542 28;D 262656758847575384 28];
 (* 21.3 *) [D 192023834995020999 18;D 450760174726035462 20;D 317436729578665996 21;D 372578189240243553 22;D 612216363235394473 23;D 129340166575805307 23;D 333963769799205213 24;D 101900640316836292 24;D 35867321006105696 24;D 143000640190458944 25;D 636477667768615641 26;D 312437982016355761 26;D 167368558618122288 26;D 969023703335418816 27;D 600983805108323419 27;D 395934282997644337 27;D 274935044142846104 27;D 199791703386671151 27;D 150961965401215021 27;D 11793105228646069 26;D 947789001579867723 28;D 780329815501344429 28;D 655795378923486067 28;D 560880120355388945 28;D 486949923293098038 28;D 428245242181795772 28;D 380826488893292968 28;D 341936736782329186 28;D 309606140812460123 28;D 282400260607815095 28;D 259256254728727385 28;D 239374005024297336 28];
 (* 21.4 *) [D 191574655819708063 18;D 447604334839798686 20;D 313741344320554558 21;D 366520143301062448 22;D 599447644945135989 23;D 126050887315039085 23;D 323950685290392261 24;D 983843606203174953 25;D 344686246513843887 25;D 136789332908416826 25;D 606054809113274245 26;D 296175784318404203 26;D 157972327494678444 26;D 910859991779416318 27;D 562732372722748784 27;D 369415060360960797 27;D 255691416955121311 27;D 185269685374028286 27;D 139630017817299005 27;D 108832626956296041 27;D 872943510697418921 28;D 717475272978697421 28;D 602072301004160349 28;D 514264282478534803 28;D 445973808910869382 28;D 391821831344081159 28;D 348134839800051704 28;D 312345893791981639 28;D 282623408959183738 28;D 25763532840111091 27;D 236395843938308821 28;D 218163650119881119 28];
 (* 21.5 *) [D 191128614107793203 18;D 444485148018343408 20;D 310105906526622427 21;D 360588156448273086 22;D 587002906065705337 23;D 122860003814827012 23;D 314282337537048978 24;D 950048949405528253 25;D 331305469434983058 25;D 130874277325954876 25;D 57721214274755589 25;D 280824754509584896 26;D 149139041858928591 26;D 856391975043416656 27;D 527039018332721349 27;D 344749441715899708 27;D 237844817565759518 27;D 171836591669879824 27;D 129171515594896794 27;D 100452105561533714 27;D 804122460240600738 28;D 659766639330518918 28;D 552811863082790621 28;D 471569266513331655 28;D 408481398778471419 28;D 358524027011460064 28;D 318271395324003406 28;D 285333222639996831 28;D 258006322477849045 28;D 235053604711280902 28;D 21556063486775015 27;D 198840542983266102 28];
 (* 21.6 *) [D 190685673503861391 18;D 441402021036392712 20;D 306529171642408378 21;D 354779037516736683 22;D 574872477134204295 23;D 11976413611652538 22;D 304945343358295587 24;D 917563269425560236 25;D 318502028796045819 25;D 125240117873577657 25;D 549861306065683177 26;D 266330404014747805 26;D 140832993481411064 26;D 805372884975239595 27;D 493725188771042907 27;D 321803026271709001 27;D 221290603587976008 27;D 159408568957888722 27;D 119517596622770598 27;D 927317438800948296 28;D 740832933310482149 28;D 606776686840407718 28;D 507638892127624471 28;D 432461869248123762 28;D 374173853250871808 28;D 328081514237698238 28;D 290989810923575357 28;D 26067274501679026 27;D 235546379206002537 28;D 214461718067546063 28;D 196570462309283866 28;D 181236129783383359 28];
 (* 21.7 *) [D 19024579823955289 17;D 438354372956253646 20;D 30300992654720742 20;D 349089690368025286 22;D 563047020089424744 23;D 11676003518258264 22;D 29592689703402602 23;D 886330212588704407 25;D 306248566837717851 25;D 11987235594856203 24;D 523919210817757425 26;D 252641694618359271 26;D 13302085473470391 25;D 757573153832139219 27;D 462625261431028191 27;D 300451469450200048 27;D 205932183078227329 27;D 147908369452082175 27;D 110604933720316606 27;D 856185193615340782 28;D 682622914225505442 28;D 558114087779593751 28;D 466210085274451082 28;D 396637459993984893 28;D 342778169265113724 28;D 300247516598599497 28;D 266065328869060369 28;D 238158395309881226 28;D 215053540747283713 28;D 195683496520364454 28;D 179261249333874388 28;D 16519696165334063 27];
 (* 21.8 *) [D 189808953121431268 18;D 435341634818176297 20;D 299546988620157951 21;D 343517110640914567 22;D 551517515463848519 23;D 113844577259963586 23;D 287214742940223659 24;D 856296089867124902 25;D 294519134953771643 25;D 114757298857607524 25;D 499307709695438775 26;D 239710808793117324 26;D 125671512890307329 26;D 712779170191143183 27;D 433585577819217353 27;D 28057970996592463 26;D 191680380887630142 27;D 137264820345156086 27;D 102375282335721873 27;D 790637395453834846 28;D 629077853217194162 28;D 513420366043006127 28;D 428211277922462613 28;D 363817511102773487 28;D 314044931178909641 28;D 27479673406735502 27;D 243292876490945241 28;D 217602257605279913 28;D 196354590501387654 28;D 178558432021770705 28;D 163483565753545368 28;D 150583336893036099 28];
 (* 21.9 *) [D 189375103519156438 18;D 432363249339891637 20;D 296139204838192872 21;D 338058382627183344 22;D 540275250125860792 23;D 111014758510105382 23;D 278797149593841967 24;D 827409739912929614 25;D 28328911551782661 24;D 109882011981504879 25;D 475953285076587677 26;D 227492935992624531 26;D 118755916385821403 26;D 670792127742956239 27;D 406463551318400705 27;D 262081257692231801 27;D 178452855870897678 27;D 127412336585062918 27;D 947750657343227074 28;D 730226833528783704 28;D 579817522705111619 28;D 472367109994769426 28;D 393354947868411183 28;D 333747343400452688 28;D 287746258600059379 28;D 251523462517448266 28;D 222485332768291919 28;D 198832959442483931 28;D 179291638269359377 28;D 162940282379333538 28;D 149101316147077699 28;D 137268065566964934 28];
 (* 22.0 *) [D 188944215353953703 18;D 429418670625015666 20;D 292785450904628652 21;D 332710676267348631 22;D 529311805546215351 23;D 108267689891704761 23;D 270662885029050836 24;D 799622399674630449 25;D 272535148341513359 25;D 105234273948019504 25;D 453786758390795831 26;D 215946073756318709 26;D 112246932169696388 26;D 631426959844027374 27;D 381126843329587423 27;D 244857537437980518 27;D 166173564802056899 27;D 118290473390476936 27;D 877549945313590976 28;D 674542724630316847 28;D 534493140175305278 28;D 434653423961786173 28;D 361377934942906378 28;D 30619406771731505 27;D 263673933860110967 28;D 230239878779011649 28;D 203471948292287938 28;D 181694208332325817 28;D 163720758304749889 28;D 148695798420495883 28;D 135990545771371188 28;D 125135345436016311 28];
 (* 22.1 *) [D 188516255087370082 18;D 426507363880019392 20;D 289484630407218803 21;D 327471244261217948 22;D 518619046564121898 23;D 105600592283394313 23;D 262801193431282577 24;D 772887582148413796 25;D 262235061473288727 25;D 100802534614005954 25;D 4327430186785674 24;D 20503084256066659 25;D 106119213299250667 26;D 594511353260817776 27;D 357452602428904048 27;D 228817284157323447 27;D 154772269189875698 27;D 109843515216773236 27;D 812697176901027652 28;D 623207702228344183 28;D 492784734842991243 28;D 40000359777641246 27;D 332039357410419131 28;D 280944705353476259 28;D 241637693320546922 28;D 21077447660320337 27;D 18609690497552402 27;D 166043458299944861 28;D 149510748860899482 28;D 135703565118236658 28;D 124038353735989877 28;D 114079739164031048 28];
 (* 22.2 *) [D 188091189710309518 18;D 423628805139475645 20;D 286235674004548156 21;D 322337419288380528 22;D 508189110629583633 23;D 103010791834079484 23;D 255201772959853763 24;D 747160960843888009 25;D 252367806066350418 25;D 965758756715224218 26;D 412760769019496495 26;D 1947103134298606 24;D 100349076030702208 26;D 559884835054941313 27;D 335326761604667968 27;D 213875985479712014 27;D 144184081500786368 27;D 102020098159680011 27;D 752775023502847461 28;D 575875057595580617 28;D 454398737249235753 28;D 368164975559844352 28;D 305118708034047984 28;D 257804471828166275 28;D 22146366809824861 27;D 192970640190373992 28;D 170218003093412094 28;D 151750694855614061 28;D 136542002358044972 28;D 123852946442499701 28;D 11314190377806094 27;D 104005243650904069 28];
 (* 22.3 *) [D 1876689867323388 16;D 420782480999304756 20;D 283037538639692013 21;D 317306611333986803 22;D 498014397499802335 23;D 100495715529379573 23;D 247854754694009691 24;D 722400260570225388 25;D 242913395061976978 25;D 925439737054798442 26;D 393782289599755484 26;D 184949847392439223 26;D 949143856980723388 27;D 527397927031330191 27;D 314643389034196345 27;D 199955367781859547 27;D 134349047585580444 27;D 947728630359505933 28;D 697399400748321208 28;D 532226211625118899 28;D 41906577273928375 27;D 338906006571817308 28;D 280414114201357902 28;D 236595209637971385 28;D 202992961071234828 28;D 176685343122935532 28;D 155705464351168842 28;D 138697327834178628 28;D 124705476270678088 28;D 11304312462379079 27;D 103207523847445624 28;D 948244431723453191 29];
 (* 22.4 *) [D 187249614171256368 18;D 417967888357751629 20;D 279889206780109617 21;D 312376305115381706 22;D 488087559368591856 23;D 980528869632482686 24;D 240750682641055064 24;D 698565154173141327 25;D 23385284545126547 24;D 886970655422117443 26;D 375753216277142031 26;D 175716945937850763 26;D 897944507313906052 27;D 496911362607253724 27;D 295304088222168886 27;D 186982922330361902 27;D 125211762370503002 27;D 880581366112480941 28;D 646216773069419381 28;D 49196839783798376 27;D 386538641411931295 28;D 312014462443355769 28;D 257740747871371728 28;D 217153957004126856 28;D 186080348186766017 28;D 161787961623318978 28;D 142440840677732661 28;D 126775182488682732 28;D 113901755724346108 28;D 103182225354037578 28;D 94149886505834207 28;D 864577387595768301 29];
 (* 22.5 *) [D 186833040542916369 18;D 415184534163836837 20;D 27678968568278473 20;D 307544057605362531 22;D 478401491408803355 23;D 956799223044445344 24;D 233880494748814162 24;D 675617164876071686 25;D 225168123893743559 25;D 850259157393561194 26;D 35862233358336692 25;D 166981111689434534 26;D 849699242140187326 27;D 468295361360959336 27;D 277217443655208645 27;D 174891468305323059 27;D 116721016115633373 27;D 818356386567641842 28;D 59890168016116298 27;D 454832538741064442 28;D 356590468628586286 28;D 287295806470153497 28;D 236929372346699334 28;D 19933164073302977 27;D 170593093151939308 28;D 148159192040664349 28;D 130316019365750032 28;D 115885580083769363 28;D 104040199599826325 28;D 941865212127771145 29;D 858912628653048755 29;D 788326469370770454 29];
 (* 22.6 *) [D 186419234851300638 18;D 412431935173034034 20;D 273738006683667395 21;D 302807495648027032 22;D 468949322708770209 23;D 933745264480852453 24;D 227235504868021881 24;D 653519573900331086 25;D 216842095485776257 25;D 815217860776618781 26;D 342341381178693851 26;D 158713718568003896 26;D 804227124244534251 27;D 441428956887730276 27;D 260298508433202867 27;D 163618749773781755 27;D 108829468765470942 27;D 760682127095706473 28;D 555154466824563014 28;D 420571299217463567 28;D 329013011539858425 28;D 264571701886166309 28;D 217825014009417544 28;D 182991882357175026 28;D 15640986555105637 27;D 135690063365537253 28;D 119232316012454018 28;D 105938500017269573 28;D 950381626785475268 29;D 859797063008347508 29;D 783608434484462833 29;D 718831615591978981 29];
 (* 22.7 *) [D 186008166578831486 18;D 409709617709935242 20;D 270733224510510379 21;D 298164313663362525 22;D 459724407584730697 23;D 911344893430390558 24;D 220807385613397902 24;D 632237333059061972 25;D 208858475485145723 25;D 781764069248273905 26;D 326864872843922172 26;D 150887890773551278 26;D 761358898499678813 27;D 416199373930850098 27;D 244468330618977462 27;D 153107063918920055 27;D 101493350120157397 27;D 70721578588850622 27;D 514699199246342708 28;D 388957302022046728 28;D 303615108338019023 28;D 24367864717059518 27;D 200285748194313524 28;D 168009907674677309 28;D 143419753312688872 28;D 124281036387841321 28;D 109099647477227943 28;D 968518162109982864 29;D 868202870328446475 29;D 784922356951186378 29;D 714941199493004598 29;D 655491730527217905 29];
 (* 22.8 *) [D 185599805676918419 18;D 407017117437674426 20;D 267774416618231401 21;D 293612271436902664 22;D 450720317252085535 23;D 889576824864185032 24;D 21458815207511348 23;D 611736982038511963 25;D 201201783810725277 25;D 7498195035030094 24;D 312149927159454172 26;D 143478389961896256 26;D 720936201981917878 27;D 392501451067703144 27;D 229653515306300468 27;D 143302918048728728 27;D 94672183742322522 27;D 657641048823675364 28;D 477281752197846537 28;D 359781491726172943 28;D 28022125808583134 27;D 224466727476145818 28;D 184181589317268301 28;D 154271550672592936 28;D 131521361250110358 28;D 113841181856328331 28;D 998357777646032718 29;D 885506011604635471 29;D 793178564740934085 29;D 716607239126422944 29;D 652323224175232392 29;D 597759398873263581 29];
 (* 22.9 *) [D 185194122556732157 18;D 404353979133888314 20;D 264860682545968124 21;D 289149191990945695 22;D 441930831839197923 23;D 868420555768962349 24;D 208570146335136427 24;D 591986570097693461 25;D 19385730214786085 24;D 719310048781716042 26;D 298156109081197708 26;D 136461510038676902 26;D 682810829684676633 27;D 37023710551920127 26;D 215785819643688572 27;D 13415671310763037 26;D 883285326855686417 28;D 611665997660757098 28;D 442668052942172964 28;D 332851634617585654 28;D 258670320015521044 28;D 206798472210947296 28;D 169393476237898625 28;D 141672343609835403 28;D 12062198812854339 27;D 104287430675188852 28;D 913656303724815449 29;D 809664916237236943 29;D 724682084264154258 29;D 654273970945568251 29;D 595219068821806986 29;D 545136075641494746 29];
 (* 23.0 *) [D 184791088080199504 18;D 401719756473001537 20;D 26199114329502717 20;D 284772959533986855 22;D 433349932728248872 23;D 847856333190132206 24;D 202746022745546462 24;D 572955581933866736 25;D 186811033500974584 25;D 690165517728999508 26;D 28484528167868019 25;D 129814979035230046 26;D 646844051777954166 27;D 349314836915909462 27;D 202801778269837751 27;D 125622451598005998 27;D 824277652874166744 28;D 569021186558202468 28;D 410642468834062986 28;D 307990943123698727 28;D 238814322144653507 28;D 190547809668708799 28;D 155812344621397594 28;D 130116685756363102 28;D 110636875377801669 28;D 955438897900454946 29;D 836206612200463303 29;D 740371104672231842 29;D 662141980984149152 29;D 597395940965100248 29;D 543140888809544007 29;D 497167708384354219 29];
 (* 23.1 *) [D 184390673551212858 18;D 39911401181463102 19;D 259164940726961123 21;D 280481517485168596 22;D 424971795208422762 23;D 827865123710635219 24;D 197108733928361168 24;D 55461486747662202 24;D 180049664045071771 25;D 662319427597230651 26;D 272181467352321156 26;D 123517867569883103 26;D 612905978666053338 27;D 329649267098482338 27;D 1906423568172635 25;D 1176574679869955 25;D 769378394133205858 28;D 529457873146781366 28;D 381006326690970857 28;D 285036814297649946 28;D 220517369926273889 28;D 175599110388803793 28;D 143338278781473352 28;D 119517083942679797 28;D 101488521175139746 28;D 875412179776483402 29;D 765382867931941804 29;D 677055396758614143 29;D 605037102848026746 29;D 545493121043129489 29;D 495644187692634148 29;D 453440752794496555 29];
 (* 23.2 *) [D 183992850707048346 18;D 396536315997912028 20;D 256381236981038717 21;D 276272866570695947 22;D 416790781427419773 23;D 808428584295331702 24;D 191651517458712503 24;D 536936575387688351 25;D 173560527137315504 25;D 635708790881568464 26;D 260130717894632369 26;D 117550503434233208 26;D 580874970376832952 27;D 311160713255005062 27;D 179252631325356633 27;D 110222179828593824 27;D 718291036702116298 28;D 492746391536291997 28;D 353576553014748507 28;D 263839672794392362 28;D 20365464644602183 27;D 161846311646573402 28;D 131879736140447567 28;D 109793458673151969 28;D 931060541756951155 29;D 802160562655855923 29;D 700613626219606903 29;D 619198399801299011 29;D 552892145478718832 29;D 498127927875605208 29;D 452323950556073611 29;D 413578546229775829 29];
 (* 23.3 *) [D 183597591709986741 18;D 393986248141555509 20;D 253639213910403244 21;D 272145062989300885 22;D 408801433627975372 23;D 789529034434413893 24;D 186367883195374608 24;D 519894090057033012 25;D 167331569358680997 25;D 610273918531462705 26;D 248660992804467469 26;D 111894391877343551 26;D 550637087074955863 27;D 293774791905103498 27;D 168581491573856671 27;D 103279857973085191 27;D 670741142289606728 28;D 458674655678031896 28;D 32818442505945023 27;D 24426190957594255 27;D 188111496405601369 28;D 149192116130234345 28;D 12135283803947084 27;D 100872510103335883 28;D 854246616715890739 29;D 735105081748310935 29;D 641377076385332641 29;D 566326129588310587 29;D 505273599093341752 29;D 454901453620453289 29;D 412811123476381704 29;D 377238006919569255 29];
 (* 23.4 *) [D 183204869139131545 18;D 391463395449453223 20;D 250938072536242744 21;D 26809621664396954 21;D 400998467656714545 23;D 771149429522821318 24;D 181251601224674426 24;D 503461971898396623 25;D 161351318463958032 25;D 585958234941148094 26;D 237742045304587162 26;D 106532141191649483 26;D 52208557773094092 26;D 277422051431670449 27;D 158581366503926413 27;D 967964143662931617 28;D 626474660060628634 28;D 427046782463403523 28;D 304674423579180839 28;D 226176908327269893 28;D 173782586795941577 28;D 13754725845983215 27;D 111680721176481248 28;D 926871386800896608 29;D 783850674198879064 29;D 673716654030138329 29;D 587196703598343042 29;D 518006018452512411 29;D 461786055293879963 29;D 415450032577276869 29;D 376769408011212284 29;D 344106629520285234 29];
 (* 23.5 *) [D 182814655982418753 18;D 388967353021653844 20;D 248277032519322747 21;D 264124489437269682 22;D 393376766733282018 23;D 753273335415939415 24;D 176296690385725627 24;D 487615900759192357 25;D 15560885312607648 24;D 562708103974682848 26;D 227345315550980135 26;D 101447393232929256 26;D 495120404198822364 27;D 262037631037052793 27;D 149207970037688246 27;D 90740206060933645 27;D 585256370565928758 28;D 397681824816699376 28;D 282903178857312763 28;D 209468152243187104 28;D 160571137770074867 28;D 126829833750687047 28;D 102792944446569462 28;D 851759156979754779 29;D 719330547981716837 29;D 617511749536092379 29;D 53763733198793464 28;D 473843276009633036 29;D 422068841651532633 29;D 379442113855948443 29;D 343892342438152658 29;D 313899750336585722 29];
 (* 23.6 *) [D 182426925628813042 18;D 386497723670539517 20;D 24565533164825839 20;D 26022809362773357 21;D 385931375468271183 23;D 735884904104976815 24;D 171497407346721276 24;D 472332622270736408 25;D 150093774367924549 25;D 540472665330447012 26;D 217443830557805486 26;D 966247585331322231 27;D 469647798159315011 27;D 247560944162757044 27;D 14042006573927325 26;D 850818541724190984 28;D 546868451238188401 28;D 370412605844338755 28;D 262738502320856535 28;D 194028404467463216 28;D 148388217780161811 28;D 116964682923288268 28;D 94624946413007787 28;D 78282599440210221 28;D 660190313280180594 29;D 566048440691834096 29;D 492301515364602946 29;D 433477571276476193 29;D 385792954875676077 29;D 346575412666085944 29;D 313900644008999807 29;D 286358057933786195 29];
 (* 23.7 *) [D 182041651860685237 18;D 384054117742038504 20;D 243072225343927616 21;D 256405290244863277 22;D 378657494119025633 23;D 718968850458357874 24;D 166848236203708709 24;D 457589896975120132 25;D 144796178581547764 25;D 519203680595964986 26;D 208012110394703696 26;D 920497556893332921 27;D 445579848573900033 27;D 233935384561259604 27;D 132179248882072019 27;D 797940766125800199 28;D 511109153765017934 28;D 345084645839823539 28;D 244058496686832654 28;D 179758956033224728 28;D 137152097549742792 28;D 10788282991775313 27;D 871175490511693781 29;D 719556929507313489 29;D 605976309545657662 29;D 518922796484338917 29;D 450826244859108101 29;D 396580007661459253 29;D 352658265970478863 29;D 316574315315142076 29;D 286539788801979361 29;D 261245327057830807 29];
 (* 23.8 *) [D 181658808846366126 18;D 381636152941715397 20;D 240526986179450934 21;D 25265438756043219 21;D 371550473072909842 23;D 702510429978244489 24;D 16234387857485801 23;D 443366452074728162 25;D 139706632040891631 25;D 498855388386696827 26;D 199026080243748561 26;D 877087547347460409 27;D 422834117469401411 27;D 221108053346364559 27;D 124449744598818505 27;D 748515335276818148 28;D 477791584434885295 28;D 321555174619125885 28;D 226750738176230744 28;D 166568935673103255 28;D 126787657915340428 28;D 995209663875658607 29;D 802165037853888536 29;D 661480398290268032 29;D 556273507874671675 29;D 475765591198543829 29;D 412879945510872048 29;D 362850364858571277 29;D 32239097315994106 28;D 289187515237571735 29;D 261577807861523248 29;D 238346355771947318 29];
 (* 23.9 *) [D 181278371132871801 18;D 379243454165586008 20;D 238018903415186007 21;D 248973739613857936 22;D 364605807548141116 23;D 686495417523924662 24;D 157979244164729491 24;D 429641935659494097 25;D 134816146820112876 25;D 479384368002280938 26;D 190462987931656439 26;D 835889242187160085 27;D 401333282033537275 27;D 209029505475665934 27;D 11719822089417113 26;D 702306844524971243 28;D 44674257927318214 27;D 299692222280313984 28;D 210711524870188017 28;D 154374676342697791 28;D 117225846994753382 28;D 918209798278009719 29;D 738720761836702842 29;D 608164547541665393 29;D 510702192976950866 29;D 436239300119468 26;D 378159736316586735 29;D 332014583987846754 29;D 294741280526601452 29;D 264185859411218843 29;D 238803280232257106 29;D 217465087531541034 29];
 (* 24.0 *) [D 180900313638795883 18;D 376875653335509453 20;D 235547282548207045 21;D 245361744789518705 22;D 357819132502745105 23;D 67091008695628368 23;D 153749441774451619 24;D 416396873275505886 25;D 130116158034961674 25;D 460749411070816783 26;D 182301326579192495 26;D 796781817420575688 27;D 381004801150634372 27;D 197653514235897257 27;D 110393615394300728 27;D 659096562706652112 28;D 417801666447464702 28;D 279373782048717196 28;D 195845185776608168 28;D 143099133735554009 28;D 108403182526222846 28;D 84729521440567227 28;D 680386659899266872 29;D 559213857316414823 29;D 468914932283174977 29;D 40003535703325992 28;D 346388930508690795 29;D 303822474430864883 29;D 269481282279551475 29;D 241360386367819507 29;D 218023505237963607 29;D 198422901567430881 29];
 (* 24.1 *) [D 180524611647364136 18;D 374532389239015157 20;D 23311144487575985 20;D 241816844443977036 22;D 351186217742643127 23;D 655741191659915842 24;D 149649770735044324 24;D 403612626706563978 25;D 125598502329856458 25;D 44291140068634469 25;D 174520762034165254 26;D 75965147712109678 26;D 361780604644136667 27;D 186936852410074234 27;D 104006974795314642 27;D 618681211436988806 28;D 390820109028387287 28;D 260487039389178313 28;D 182063445627445128 28;D 132671352465499668 28;D 100261295576267661 28;D 781976103578545298 29;D 626744594607750832 29;D 514266053185994393 29;D 430593807177549352 29;D 36687165057917138 28;D 317314754891159392 29;D 278045622727128424 29;D 246403034361166092 29;D 22052053868885082 28;D 199062837943119101 29;D 181057056447020902 29];
 (* 24.2 *) [D 180151240799647079 18;D 372213307373427463 20;D 230710727072203231 21;D 238337521581162949 22;D 344702963220302852 23;D 640975945901648193 24;D 14567571274236872 23;D 391271354847791173 25;D 121255397538058404 25;D 425833197576890917 26;D 167102064777118163 26;D 724391020985758903 27;D 343596803619594452 27;D 176839088905078058 27;D 980113060527484353 28;D 580871836373062258 28;D 365660021750497873 28;D 24292766204391729 27;D 16928484084083207 27;D 123025975955990778 28;D 927465121372480863 29;D 721802711319491443 29;D 577411112362186002 29;D 472989283220868606 29;D 395447883532489565 29;D 336490238526521883 29;D 290706268934799307 29;D 254475485643306482 29;D 225316796734990226 29;D 201492534410870111 29;D 181761173178367913 29;D 165219273046944486 29];
 (* 24.3 *) [D 179780177087926397 18;D 369918059794155375 20;D 228344480778966599 21;D 234922299573651941 22;D 338365394515785596 23;D 626602006986340419 24;D 141822924073357723 24;D 379355976557426159 25;D 117079423446827154 25;D 409479532870466857 26;D 160027046009937106 26;D 690899439866821461 27;D 326393420419292681 27;D 167322399710350777 27;D 923814384283992114 28;D 545492763346565399 28;D 342193555929029516 28;D 226599146091878212 28;D 157434182461379517 28;D 114102796409019531 28;D 858094694312565601 29;D 666362016684943634 29;D 53203453213015735 28;D 435079536829838512 29;D 363210900721717717 29;D 308655260893770351 29;D 266352466042291335 29;D 232921651117582545 29;D 2060494311839529 27;D 184117883159637578 29;D 165972564824931852 29;D 150774444411397406 29];
 (* 24.4 *) [D 179411396849211014 18;D 36764630496701953 19;D 226012072207071768 21;D 23156974092825312 21;D 332169658492404855 23;D 612607458172803725 24;D 138087228164287415 24;D 367850135379533049 25;D 113063503603623864 25;D 393816907054396412 26;D 153278497657213523 26;D 659081537385240182 27;D 310114136808307484 27;D 158351392143290331 27;D 870938955789696712 28;D 512380632822746208 28;D 320302147158892269 28;D 211412213526480639 28;D 146442062239254768 28;D 105846341530763047 28;D 794047640071428104 29;D 615274690192964247 29;D 490292281081671427 29;D 400258284573018795 29;D 333639160111065295 29;D 283151034506768493 29;D 24406054094945279 28;D 21321025222969469 28;D 188442940801666208 29;D 16825203410211223 28;D 15156396824821157 28;D 137599461098955097 29];
 (* 24.5 *) [D 179044876758898891 18;D 365397707624492944 20;D 223712881751784487 21;D 228278446094198771 22;D 326112019119572823 23;D 598980792314553013 24;D 13446460853289034 23;D 356738166036554688 25;D 109200888103341954 25;D 378813494749438504 26;D 146840136028442572 26;D 628847575867683358 27;D 294706059112250239 27;D 14989294141530205 26;D 821267769338102004 28;D 481383506657967405 28;D 299875820853723148 28;D 197284257216496094 28;D 136244398326792 25;D 98205494969933647 28;D 734906289645481009 29;D 568192306731003438 29;D 451888455995665203 29;D 368270319880803699 29;D 306509595688820836 29;D 259780313124625879 29;D 223654308647150346 29;D 195182520666396233 29;D 17235313859196408 28;D 153763143961151014 29;D 138414094858415447 29;D 125582141647301824 29];
 (* 24.6 *) [D 178680593824580661 18;D 363171938625736347 20;D 221446303618977902 21;D 225047052312299157 22;D 320188853455755594 23;D 585710896191876957 24;D 130951202027093279 24;D 346005062596454353 25;D 105485137300208195 25;D 364439054944505535 26;D 140696548906095209 26;D 600112944972007824 27;D 280119499119897786 27;D 14191603862480154 26;D 774596476669193637 28;D 452360041602327777 28;D 280812551079269761 28;D 184138829452110025 28;D 126782017362840692 28;D 911331476799393648 29;D 680286378647468775 29;D 524794791846043319 29;D 416551591131279963 29;D 338881785268022558 29;D 281618011013743327 29;D 23836269865757184 28;D 204972761500310474 29;D 178693467353568427 29;D 157648433713930386 29;D 140530954389698038 29;D 126412368765676743 29;D 1146202587192153 27];
 (* 24.7 *) [D 178318525379981388 18;D 360968674820313005 20;D 219211745462806211 21;D 221874232503495488 22;D 314396647784784405 23;D 572787035503385652 24;D 127543292384086982 24;D 335636448224652941 25;D 101910106391423921 25;D 350664846360476564 26;D 13483314584037511 25;D 572797851480435836 27;D 266307769649894361 27;D 134391649350245268 27;D 730734366216878426 28;D 425178724429899724 28;D 263017668499483065 28;D 17190517058766221 27;D 118000269982100189 28;D 845858776494995744 29;D 629834330946974777 29;D 484788081666026028 29;D 384032614921353019 29;D 311878367144465704 29;D 258777468041813927 29;D 218733190273777376 29;D 18786875241778069 28;D 163610679020609241 29;D 144208724931360894 29;D 128445768958771071 29;D 115457976397635893 29;D 104620652342743106 29];
 (* 24.8 *) [D 177958649079036819 18;D 358787598915471866 20;D 217008628034302077 21;D 218758694195309969 22;D 308731993899080718 23;D 560198840486780702 24;D 124237304084307377 24;D 325618546436099608 25;D 984699308228241071 26;D 337463547632780527 26;D 129236111446142055 26;D 546827028845725624 27;D 253226993760279208 27;D 1272925820779262 25;D 689503415960114262 28;D 399717163980340866 28;D 246403313588148391 28;D 160517774576421175 28;D 109848677031377711 28;D 78523655660132433 28;D 58322476639652384 28;D 447901978388576836 29;D 354102979365418096 29;D 287063644702817498 29;D 237816814654200726 29;D 200740859352253411 29;D 172207792999614064 29;D 14981322045958627 28;D 131924391755910855 29;D 117407520885138152 29;D 105459000766917028 29;D 95498422431408716 29];
 (* 24.9 *) [D 177600942890100603 18;D 35662839934689167 19;D 214836384840526073 21;D 215699178484754758 22;D 303191585523647909 23;D 547936292140093181 24;D 121029796485729991 24;D 315938153767634229 25;D 95159012469835325 25;D 324809182022185998 26;D 123892361511132358 26;D 522129465174023491 27;D 24083592665323524 26;D 120593365756213969 27;D 650737414406897956 28;D 375861435764774845 28;D 230887931566139894 28;D 149915988453179981 28;D 102280603998936665 28;D 729095749246265692 29;D 540158213924936295 29;D 413888184814856499 29;D 326552947387475803 29;D 264257579624375033 29;D 218579338859499842 29;D 184247639296645738 29;D 157866956565991932 29;D 137190633149699556 29;D 120695374620300023 29;D 10732492341796319 28;D 96331632821632404 29;D 871761934734345819 30];
 (* 25.0 *) [D 177245385090279095 18;D 354490770152782302 20;D 212694461813910504 21;D 212694459036321731 22;D 297772214874962694 23;D 535989709016055549 24;D 117917458224654922 24;D 306582613795329803 25;D 919720065498259482 26;D 312677046381678296 26;D 118789501737307824 26;D 498638148419393582 27;D 229095789395621767 27;D 114270135820511603 27;D 614281144657769853 28;D 353505475128513711 28;D 216395805806685697 28;D 140043643059419756 28;D 952529613686010248 29;D 677096026397719542 29;D 500359012860293202 29;D 382518502815512384 29;D 301190024691412609 29;D 243295134492343307 29;D 200921538692874668 29;D 169127220189089133 29;D 144733876862942875 29;D 125642021744791406 29;D 110430336189342505 29;D 981146955259224148 30;D 879994529906604082 30;D 795834449186776569 30];
 (* 25.1 *) [D 176891954259890405 18;D 352374410851243174 20;D 210582316991453465 21;D 209743341113732282 22;D 292470769349165994 23;D 524349734563618942 24;D 11489710186989123 23;D 297539792425760436 25;D 88903809224576106 25;D 301043644124523462 26;D 113915788948985768 26;D 4762898276497691 25;D 217970113638965875 27;D 108300528081783755 27;D 579989626880390235 28;D 332550515275802648 28;D 202856626710435422 28;D 130848712525066634 28;D 887259287986316395 29;D 628923516506642782 29;D 463573386790813337 29;D 353583181903647567 29;D 277837523804713275 29;D 224025008851630646 29;D 184711997792159391 29;D 155264039142541259 29;D 132705834051979387 29;D 115075220675192601 29;D 101045896619030958 29;D 897008561837554906 30;D 803927766530146411 30;D 726559013739771743 30];
 (* 25.2 *) [D 176540629277044512 18;D 350279026320781796 20;D 208499420203431888 21;D 206844660644181091 22;D 287284228334206398 23;D 513007324991901519 24;D 111965658817940029 24;D 288798054394143077 25;D 859495458540625691 26;D 289886621954696628 26;D 10926009461240693 25;D 455024789322741836 27;D 207424596581027689 27;D 102663579916397331 27;D 547727414881639128 28;D 312904566749501338 28;D 190205093290513376 28;D 122283000222108613 28;D 826627011980383762 29;D 584288705741022344 29;D 429567675594706316 29;D 3268894052669898 27;D 256333249058608896 29;D 206308482811720779 29;D 169830357504448483 29;D 142552358011732195 29;D 121688920330787081 29;D 105406033801687346 29;D 924659362136137093 30;D 820140811557402455 30;D 734480578226587585 30;D 663349772471331589 30];
 (* 25.3 *) [D 176191389312341317 18;D 348204326683898963 20;D 206445252771314764 21;D 20399728331386007 21;D 282209660140830407 23;D 501953737633060745 24;D 109120174417426981 24;D 280346240906064778 25;D 831045598650660469 26;D 279184710135868201 26;D 104811870521644245 26;D 434786647582654569 27;D 197426965465179543 27;D 973396382364924574 28;D 517367942790973542 28;D 294481935223488744 28;D 178380544926846815 28;D 114301849090044321 28;D 770292549312618373 29;D 54292450866145963 28;D 398126712480235237 29;D 302259901687601229 29;D 236528292218771349 29;D 190018358963393047 29;D 156166377173566218 29;D 130895420853907552 29;D 111597278206566455 29;D 965575406848023623 30;D 846209595131839402 30;D 749911167184676291 30;D 6710734585163177 28;D 605672709615121624 30];
 (* 25.4 *) [D 17584421382368361 17;D 346150027193650085 20;D 204419307214569594 21;D 201200103693598583 22;D 277244219047542986 23;D 491180519781726335 24;D 106357803311649976 24;D 272173648363047005 25;D 803644022002755127 26;D 268917666089168245 26;D 100561116515297369 26;D 41552214765829812 26;D 187946850963975466 27;D 923102737584347166 28;D 488792918170636672 28;D 277202774709437656 28;D 167326620950463322 28;D 106863874402682265 28;D 717941325272608013 29;D 504584494448743914 29;D 369052333984462736 29;D 279531672761272962 29;D 218285929363079364 29;D 175037994178115467 29;D 143619074985848844 29;D 120204684197171018 29;D 102352405058374335 29;D 884594636024317738 30;D 774475153748709033 30;D 685742452613648784 30;D 613177904198862629 30;D 553041043016290624 30];
 (* 25.5 *) [D 175499082551202029 18;D 344115848123095227 20;D 20242108696606653 20;D 198452044393503705 22;D 272385142454880077 23;D 480679497989714754 24;D 103675804988688389 24;D 26427000811552835 24;D 777248213155956974 26;D 259066221123055327 26;D 964983500973059677 27;D 397180981503525188 27;D 178955668839737464 27;D 87558201122332705 27;D 461891758146767527 28;D 260992673504148467 28;D 156990945903606196 28;D 999307172014572156 29;D 669282444020846289 29;D 469041255947538195 29;D 342162011892296566 29;D 258554825728182244 29;D 201480610409117093 29;D 161260413587517735 29;D 1320959424150288 27;D 110399113782147969 29;D 938825181851506216 30;D 810475899679631021 30;D 708876680939432524 30;D 627107981550568754 30;D 560311905039508022 30;D 50501102848904592 29];
 (* 25.6 *) [D 175155975512289159 18;D 342101514657553308 20;D 200450106095795587 21;D 195752055245529832 22;D 267629748144542359 23;D 470442767795773786 24;D 101071539529068694 24;D 256625467189980178 25;D 751817536952687018 26;D 249612030110863829 26;D 926145778434953409 27;D 379715614881631029 27;D 170426509318027359 27;D 830672044483627161 28;D 43656106541235946 27;D 245782270410415924 28;D 147324838491753216 28;D 934668167633345138 29;D 624046862260074018 29;D 436084909847098605 29;D 317287596964561631 29;D 239191503048744858 29;D 185997033430561305 29;D 148587499705546262 29;D 12151222591229266 28;D 101404541997090825 29;D 861219750468816793 30;D 742632452740906035 30;D 648885150512440057 30;D 573527116888597308 30;D 512035834021764456 30;D 461178138297162711 30];
 (* 25.7 *) [D 174814872996740007 18;D 340106756789578711 20;D 198505889042622812 21;D 193099112512950435 22;D 262975431639137123 23;D 460462683871080114 24;D 985424635414991835 25;D 24923056993981832 24;D 727313148562070542 26;D 240537623943052083 26;D 889012684831841919 27;D 363081125148744341 27;D 162334033649764565 27;D 788220679459317689 28;D 412704141190065479 28;D 231506898954857721 28;D 138283042400162984 28;D 874392006025907872 29;D 581985706781802636 29;D 4055217172880268 27;D 294274165212274809 29;D 221314900610528155 29;D 17172929657452511 28;D 136929250263258948 29;D 111790270039903707 29;D 931530807321626773 30;D 790107438719489597 30;D 680528121185053472 30;D 594017467742349043 30;D 52456122253098629 29;D 467948702453443403 30;D 421173580280911428 30];
 (* 25.8 *) [D 174475755561996173 18;D 338131309216581236 20;D 19658797035382135 20;D 19049221812574638 21;D 258419663658463246 23;D 450731850562136853 24;D 960861262776758686 25;D 24207624057254956 24;D 703697908146111972 26;D 231826364591876885 26;D 853503275523760577 27;D 347235049042023444 27;D 154654377374728233 27;D 748085112197217716 28;D 390230532461613455 28;D 218106257501572987 28;D 129823477291533692 28;D 818172906262594533 29;D 542868724343693179 29;D 37717281507093812 28;D 27297895823082066 28;D 20480836713967842 28;D 158580121006781617 29;D 126203098880793259 29;D 102858916750795398 29;D 855825848397816646 30;D 724939202281516333 30;D 623672912603836425 30;D 54383245664047669 29;D 479809972828386922 30;D 42768474740915547 29;D 384661127158838712 30];
 (* 25.9 *) [D 174138604028491117 18;D 336174911241012935 20;D 194695894432123001 21;D 187930398940964941 22;D 253959987668453372 23;D 441243112813594436 24;D 937001659176240758 25;D 235153766508204886 25;D 680936299895165356 26;D 22346240263622864 25;D 819540735217601672 27;D 332137239825443246 27;D 147365059833465631 27;D 710131289425669077 28;D 369055610972515742 28;D 205524103322127546 28;D 121907008433768423 28;D 765727241736990025 29;D 506482853274655494 29;D 350873048455497239 29;D 253270409818472897 29;D 189564578019109894 29;D 146460138873633767 29;D 116333293207452186 29;D 946529559765010903 30;D 786361618085146167 30;D 665212855418291346 30;D 571619010144681053 30;D 497927199735183304 30;D 438907987900202423 30;D 390910321900327803 30;D 351334228267278633 30];
 (* 26.0 *) [D 173803399475093974 18;D 334237306673047857 20;D 192829215290045128 21;D 185412706027141656 22;D 249594017519057945 23;D 43198954745434975 23;D 91382306017477292 24;D 228454782526572449 25;D 658994355193905019 26;D 215430637103722673 26;D 787052153089985471 27;D 317749733189646761 27;D 140444899506419465 27;D 674233345890850634 28;D 349100181707160267 28;D 19370796883128874 27;D 114497233528640725 28;D 716791887723944361 29;D 472630907067917696 29;D 326469897282819659 29;D 235027251754300658 29;D 175484777290769125 29;D 135287240782629614 29;D 107250325623307695 29;D 871126231055601769 30;D 722617236416560807 30;D 610469039022716855 30;D 523957116156551319 30;D 45593369924128842 29;D 401521765936348369 30;D 357321060811177482 30;D 32091337848881734 29];
 (* 26.1 *) [D 173470123234649488 18;D 332318243735683128 20;D 190987496311256684 21;D 182938213971913505 22;D 245319435167518255 23;D 422964454831067399 24;D 891303521120079832 25;D 221971255663061133 25;D 637839579692848718 26;D 207716677495899642 26;D 755968310906058685 27;D 304036621342960991 27;D 133873934788571535 27;D 64027307946161297 27;D 330290118701472481 28;D 182608898335172706 28;D 107560285424208184 28;D 671122695354824402 29;D 441130361014405885 29;D 3038224878365163 27;D 218137692206077946 29;D 162478082145255343 29;D 124985977773546223 29;D 988904120180596389 30;D 801831393176616117 30;D 664115772815814575 30;D 56028753810225813 29;D 480313114841973409 30;D 417515831257468746 30;D 367346886149560337 30;D 326639298048953849 30;D 293143721385393024 30];
 (* 26.2 *) [D 173138756889611648 18;D 330417474972192136 20;D 189170310018755644 21;D 180506020211986625 22;D 241133988483630401 23;D 414161350774015813 24;D 869421884646157719 25;D 215695470815209455 25;D 617440884073486058 26;D 20030680787058233 25;D 726223483341663245 27;D 290963934768462584 27;D 127633349835250967 27;D 608139461369043024 28;D 312556026219260959 28;D 172181203764955733 28;D 101064649496922525 28;D 628493082122816017 29;D 411812233655528369 29;D 282800683482932741 29;D 202498660784074483 29;D 15046084468317137 28;D 115487013179914024 29;D 91195014548611776 29;D 738142910884709819 30;D 610420502401947345 30;D 51428391822539264 29;D 440345025924753238 30;D 382366567144516944 30;D 336105458392151252 30;D 298611712550537855 30;D 267792865612482231 30];
 (* 26.3 *) [D 172809282267768735 18;D 328534757155862793 20;D 187377237849638356 21;D 178115244384655045 22;D 237035489133749598 23;D 405573958880821688 24;D 84815774957847823 24;D 209620017023912286 25;D 597768518307272538 26;D 193187952863105051 26;D 697755249767051054 27;D 278499531157129235 27;D 121705405140131142 27;D 577728179136920947 28;D 295832923465135399 28;D 162382237985897015 28;D 949809945842597691 29;D 588692729819359085 29;D 384520055501333308 29;D 263284247704218564 29;D 188015114755838175 29;D 139356066172660252 29;D 106726620173326138 29;D 841104046291300431 30;D 679600454992714082 30;D 561131483870126055 30;D 472106453123613484 30;D 403740223811352759 30;D 350205438527567342 30;D 307543797585493897 30;D 273007182784596585 30;D 244648895566274375 30];
 (* 26.4 *) [D 172481681438057513 18;D 326669851201956038 20;D 185607869936249173 21;D 175765027700098688 22;D 23302181054042479 22;D 397196203104421186 24;D 82749144117875768 24;D 203737774395377366 25;D 578794009220215071 26;D 18634764553531074 25;D 670504316797661911 27;D 266612991059818344 27;D 116073372529987317 27;D 548941209935074115 28;D 280059951142463736 28;D 1531721843789116 26;D 892820164360102976 29;D 551526381527163626 29;D 359108918071999397 29;D 24516207366315945 28;D 174599401394205678 29;D 129092859430175645 29;D 986462211410680677 30;D 775872627291459148 30;D 625781982769071827 30;D 515882431121078259 30;D 43343331808112507 29;D 370212898973637145 30;D 320776224451864687 30;D 281430303054255676 30;D 249614831206619269 30;D 223518558922579317 30];
 (* 26.5 *) [D 172155936706464366 18;D 324822522081821787 20;D 183861804893506311 21;D 173454532333719324 22;D 229090885914687524 23;D 389022200632127141 24;D 807403982666841478 25;D 198041901631651924 25;D 560490101185545594 26;D 17977399694793213 25;D 644414350961667603 27;D 255275519831250903 27;D 110721474282642433 27;D 521686422250441319 28;D 26518009829008863 27;D 144513861491044377 28;D 839422927327388197 29;D 516812729960974112 29;D 335444596882300215 29;D 228331474920243876 29;D 162170671849383559 29;D 119605955319859309 29;D 91191965375127693 29;D 715803118492181819 30;D 576300517554919246 30;D 474337853235268257 30;D 397970025967487843 30;D 339501740331226985 30;D 293844841122559599 30;D 257553524627623994 30;D 228242241779396042 30;D 204225615279647795 30];
 (* 26.6 *) [D 171832030612011287 18;D 322992538739111578 20;D 182138649612207139 21;D 171182940837802291 22;D 225240706358146796 23;D 381046255043340285 24;D 787877067960382462 25;D 192525824139283601 25;D 54283069977709955 25;D 173455667358267823 26;D 619431820875233928 27;D 244459855467508854 27;D 105634826094816958 27;D 495877203921425277 28;D 251139947947256913 28;D 136372541642594657 28;D 789381487939101435 29;D 4843833900591391 27;D 31340274250424288 28;D 212697532364902995 29;D 150654342319305818 29;D 110835249703898333 29;D 843143418500654332 30;D 660479818121954368 30;D 530801201941548548 30;D 436190439599518915 30;D 365447084795751731 30;D 311367819280702428 30;D 269197416390924079 30;D 235720398981977442 30;D 208713835178481137 30;D 186609331530937534 30];
 (* 26.7 *) [D 171509945922824607 18;D 321179674008029042 20;D 180438019058123085 21;D 168949455571819644 22;D 22146931903216334 22;D 373262849734010739 24;D 768893035575953377 25;D 187183222687305673 25;D 525790818225526987 26;D 167381838950959718 26;D 595505848354967197 27;D 234140181964929081 27;D 100799383645435781 27;D 471432114720748377 28;D 237889440303168995 28;D 128715782462938559 28;D 7424753316629426 27;D 454081949291522237 29;D 292868134316356928 29;D 198172492827628989 29;D 139981598643590117 29;D 102725387484595065 29;D 779678241409694657 30;D 609521017534420904 30;D 488958601067782757 30;D 401158669011669884 30;D 335617857537396644 30;D 285592657722543799 30;D 24663853272737314 29;D 21575464116782932 29;D 190869387674227465 30;D 170523110880705844 30];
 (* 26.8 *) [D 171189665632284498 18;D 319383704533561263 20;D 178759536076701048 21;D 166753298150717082 22;D 217774825391493054 23;D 365666641596505491 24;D 750434843638037284 25;D 182008022587270132 25;D 50934652652840417 25;D 161542190015201766 26;D 572588067932980843 27;D 22429204785283648 26;D 96201892517437998 27;D 448274561801378283 28;D 225381652086410262 28;D 121513270404855859 28;D 698499023459870909 29;D 425763089666408664 29;D 273733991982613202 29;D 184675215210829344 29;D 130088940768024418 29;D 952253806610590582 30;D 721105447830094009 30;D 562576184175221534 30;D 450474234620765969 30;D 368984623430133886 30;D 30825660661146403 29;D 261976463989649952 30;D 225989623859484911 30;D 19749527760127395 29;D 174562680931209084 30;D 155833243586593245 30];
 (* 26.9 *) [D 170871172955253268 18;D 317604410693635812 20;D 17710283120319468 20;D 164593708910552567 22;D 214155379479900017 23;D 358252454944059737 24;D 732486045944994309 25;D 176994383369499048 25;D 493474903073719047 26;D 155926870486885714 26;D 550632494273616384 27;D 214892289575431597 27;D 91829841257382948 27;D 426332496439934863 28;D 21357259104091078 27;D 114736675358906529 28;D 657261139451461165 29;D 399291775894531692 29;D 255901340102903268 29;D 172130660316635827 29;D 120917763821122376 29;D 88288257581665502 29;D 667039966029591667 30;D 519323380736198715 30;D 415074317971695269 30;D 339431988715407695 30;D 283156707003004801 30;D 240336521996935322 30;D 207087511563332872 30;D 180795308018324155 30;D 159660271103289796 30;D 142417768579489654 30];
 (* 27.0 *) [D 170554451324380554 18;D 315841576523150046 20;D 175467542478055048 21;D 162469946390878967 22;D 210609186285345297 23;D 351015275669486299 24;D 715030769043617177 25;D 172136688931089961 25;D 478153988644108153 26;D 150526478779040457 26;D 529595397022243478 27;D 205918959419455073 27;D 876714173672394 25;D 40553813062304554 27;D 202421004419571088 28;D 108359515555595754 28;D 618583276677421767 29;D 374542504605574259 29;D 239278421843355384 29;D 160469420862041498 29;D 112413972814179816 29;D 818707408097678545 30;D 617127587623353595 30;D 479466900490959787 30;D 382507694565481976 30;D 31228422624388025 29;D 260129013368496472 30;D 220505720222059809 30;D 189783070290263078 30;D 165520485000109484 30;D 146040366638284746 30;D 130165436081412708 30];
 (* 27.1 *) [D 170239484386483585 18;D 314094989639820879 20;D 173853315267416206 21;D 160381286833286537 22;D 207134500152458624 23;D 343950245628289201 24;D 698053690266269323 25;D 167429538132499749 25;D 463362742676657088 26;D 145332039828469047 26;D 509435182645897372 27;D 197351257704102646 27;D 837154660367689934 28;D 385827672125044913 28;D 191888200504822852 28;D 102357032004152189 28;D 582299135076366013 29;D 351398609914611397 29;D 223780157691204026 29;D 149627288458051813 29;D 104527628223540222 29;D 7593295123647617 28;D 571042454431796056 30;D 442735100515671875 30;D 352543943224265152 30;D 28734290067357169 29;D 239000367765142976 30;D 202331208303896141 30;D 173940008399130644 30;D 151548200687620661 30;D 133591805149229005 30;D 118974762225490082 30];
 (* 27.2 *) [D 169926255999000692 18;D 312364441171804897 20;D 172259802088516891 21;D 158327023695543458 22;D 203729623250096281 23;D 337052657236776138 24;D 681540016686855537 25;D 162867735820747942 25;D 4490810016600708 24;D 140334984290751175 26;D 490112282852928795 27;D 189169468968163748 27;D 799514514379479668 28;D 367141076820827639 28;D 18193788223765401 27;D 967060717731249664 29;D 548253666274431221 29;D 329751621005818918 29;D 209327645787940826 29;D 139544854592171496 29;D 97212619940349397 29;D 704381362723280167 30;D 528484752825445506 30;D 408878416061548457 30;D 324971645431911137 30;D 264426150418507978 30;D 219612235807851015 30;D 185673170118001694 30;D 159433755755391204 30;D 138766471225376598 30;D 122213120568022199 30;D 108753167486259972 30];
 (* 27.3 *) [D 169614750226516342 18;D 310649725687040207 20;D 170686662439905073 21;D 156306467180794171 22;D 200392904091880451 23;D 330317948276191337 24;D 665475464954013025 25;D 158446284258429184 25;D 435289439557601075 26;D 135527128819777645 26;D 47158904920447187 26;D 181354901906599282 27;D 76369420414985256 27;D 349421817066125073 28;D 172535992103470549 28;D 913849794700505668 29;D 516302284182359448 29;D 309500667741007544 29;D 195847700578322604 29;D 130167142894488764 29;D 904263672806998519 30;D 65352420130949525 29;D 489178598218311303 30;D 37766754077354414 29;D 299596798951796263 30;D 243367288554020481 30;D 20181946012209791 29;D 170403703166349645 30;D 146150448361918166 30;D 127073010312103239 30;D 111811692579223305 30;D 994161914605150731 31];
 (* 27.4 *) [D 169304951337355985 18;D 308950641124262955 20;D 169133562636277423 21;D 154318943781295853 22;D 197122736107703019 23;D 323741696894296147 24;D 649846241961937005 25;D 154160374938809357 25;D 421969530150312424 26;D 130900657371734095 26;D 453829653554500919 27;D 173889832824848385 27;D 729599684147570268 28;D 332616665059506913 28;D 163650567485007459 28;D 86373496325491577 28;D 486310132785029379 29;D 290551930613561872 29;D 183272426773574574 29;D 121443270188676648 29;D 84129542939335956 29;D 606445743837590383 30;D 452870093835558349 30;D 348891758754969648 30;D 276241365303937673 30;D 224013522939145201 30;D 185489120931909057 30;D 156405795010280858 30;D 133986001509811282 30;D 11637438400057398 29;D 102302971043906493 30;D 908867772053012248 31];
 (* 27.5 *) [D 168996843800249066 18;D 307266988725652862 20;D 1676001756478108 19;D 152363795836193118 22;D 193917556264260599 23;D 317319616796210925 24;D 634639026321175841 25;D 150005380768304645 25;D 409103511201098043 26;D 126448103476970224 26;D 436799993977659966 27;D 16675745239414209 26;D 697142075129495219 28;D 316675490176489762 28;D 155251605749723273 28;D 816526663311187522 29;D 458151406860770502 29;D 272818131656381655 29;D 17153882586670768 28;D 113326134032068157 29;D 782858189444767742 30;D 562858071167111311 30;D 419325549220753291 30;D 322357415670718959 30;D 254741939699626104 30;D 206224785313405887 30;D 170499494507988089 30;D 143572388288709334 30;D 122845263687902873 30;D 106585239584838335 30;D 936097687720201164 31;D 830946189463431229 31];
 (* 27.6 *) [D 168690412281058598 18;D 305598572971063569 20;D 166086180943847822 21;D 150440381102849969 22;D 19077584373276756 22;D 311047552616699194 24;D 619840950593551856 25;D 145976848598610964 25;D 396674350345347021 26;D 12216233342649294 25;D 420467605865013912 27;D 159941815505079737 27;D 66623736400941001 27;D 30155106933670912 27;D 147310938392069554 28;D 772047489224838812 29;D 431708721693495196 29;D 256218063177468716 29;D 160588432658013346 29;D 105772124635098287 29;D 728616328311551602 30;D 522495691592082104 30;D 388329845173348676 30;D 297886517172282733 30;D 234948533010989219 30;D 189872660011735293 30;D 156739101009199573 30;D 131805526605016192 30;D 112641244173645055 30;D 976276020472297927 31;D 856616165923165619 31;D 759755675224751219 31];
 (* 27.7 *) [D 168385641639575727 18;D 303945201513794911 20;D 164591264340803266 21;D 148548072341276163 22;D 187696118602070263 23;D 304921475466424825 24;D 605439584257091106 25;D 142070492091666082 25;D 384665712619333532 26;D 118036530322921218 26;D 4048015778874853 25;D 153427794029762555 27;D 636806122075125088 28;D 287198909530589702 28;D 139802113600044481 28;D 730131377349789218 29;D 406872528140954673 29;D 24067615144073876 28;D 150366979451106131 29;D 987408592212337537 30;D 678259723969952976 30;D 485113759827117382 30;D 359684932928163869 30;D 275315443924577708 30;D 21672345624746179 29;D 174839403750538965 30;D 14410583398793715 29;D 121015574242146207 30;D 10329440785148506 29;D 89430232115322732 30;D 783941752068280164 31;D 694710884344898903 31];
 (* 27.8 *) [D 168082516926377776 18;D 302306685117865555 20;D 163115117854162589 21;D 146686256911202555 22;D 184676940635458727 23;D 298937478645045851 24;D 591422917368483489 25;D 138282184901491434 25;D 373061929542267961 26;D 114064178948649981 26;D 389772472545095907 27;D 147201032314943347 27;D 608773240379052697 28;D 273577081692710031 28;D 132700286660818904 28;D 690622849964408002 29;D 383540569699285084 29;D 226122052634172849 29;D 140824085765821085 29;D 921949370453054458 30;D 631501775386783276 30;D 450486439832628428 30;D 333208456414371379 30;D 254493773425948531 30;D 19994029882833826 29;D 161017048676701457 30;D 132506164502658284 30;D 111120503281958909 30;D 947320313730893213 31;D 819280405054337697 31;D 717486988067737174 31;D 635277678246263137 31];
 (* 27.9 *) [D 167781023379748275 18;D 300682837596745727 20;D 161657439554448251 21;D 144854336381376678 22;D 181716908069541727 23;D 29309177351432552 23;D 57777934489214862 24;D 134607954157778099 25;D 361847969672537161 26;D 110239051406702338 26;D 375352251037312387 27;D 141247905240002638 27;D 582067681205850846 28;D 260646065165450568 28;D 125982117662240786 28;D 653376311521658305 29;D 361617378459321019 29;D 212490278674127223 29;D 131912971585182046 29;D 860997134320867584 30;D 588077577905033866 30;D 418405399689846639 30;D 308732487370079919 30;D 235283199645889791 30;D 184482992687166203 30;D 148306581545845841 30;D 1218544133947167 28;D 102045242267151238 30;D 868876152917629401 31;D 750615534089165153 31;D 656715458729951322 31;D 580968621297447498 31];
 (* 28.0 *) [D 167481146422657556 18;D 299073475753510921 20;D 160217933427033707 21;D 143051726150665808 22;D 178814656453617955 23;D 287380685524742952 24;D 56449765166645746 24;D 131043974236854286 25;D 351009410562983456 26;D 106555193492315167 26;D 361514202205878352 27;D 135555478684156275 27;D 556622244593732195 28;D 248368602048863655 28;D 11962567598593533 27;D 618255393479497209 29;D 341013807085625204 29;D 199719850584932673 29;D 12359019231077217 28;D 804230913290922906 30;D 547742242993785233 30;D 38867842771519954 29;D 286102363947492141 30;D 217556542266841537 30;D 170244954925848784 30;D 136617192512010181 30;D 112072085846758909 30;D 937210810568607482 31;D 797003472755950152 31;D 687764247145517065 31;D 601137329904380426 31;D 531338875307625053 31];
 (* 28.1 *) [D 167182871659802484 18;D 297478419322378725 20;D 158796309235688985 21;D 14127785508057013 21;D 175968857528039675 23;D 281800650389373251 24;D 551566997979059032 25;D 127586560806402622 25;D 340532412044145784 26;D 103006911755713132 26;D 34823287531657459 26;D 130111472257189737 27;D 532373348953978795 28;D 236709560781306736 28;D 113610351123758906 28;D 585132344243590203 29;D 321646594166387597 29;D 18775397736815796 28;D 115815393745288527 29;D 751353289888854474 30;D 510269350741320123 30;D 361128159900195577 30;D 265175624229631249 30;D 201196838012994175 30;D 157128302359565705 30;D 125865587573231066 30;D 103087262851096989 30;D 860851269947510107 31;D 7311461193430911 29;D 630229908585851542 31;D 550305278763948487 31;D 485982456664938107 31];
 (* 28.2 *) [D 166886184874703995 18;D 295897490911592006 20;D 157392282389745691 21;D 139532165138763343 22;D 173178218140126134 23;D 276348210399080699 24;D 538976905724589897 25;D 124232165130986915 25;D 330403690768226435 26;D 995887612187904791 27;D 335484016460452611 27;D 124904224157248955 27;D 50926082489646493 27;D 225635808340513929 28;D 107916769382752455 28;D 55388746100942971 28;D 303437960482729516 29;D 176539758437299605 29;D 108551085553884927 29;D 70208862507577411 29;D 475449524420060766 30;D 335590909584374616 30;D 245821026799013217 30;D 186096507186025384 30;D 145043131863110461 30;D 115975359231004424 30;D 948340446829337333 31;D 790798079349596594 31;D 670795431872166347 31;D 577558645568720764 31;D 503810781594271177 31;D 44452882394703743 30];
 (* 28.3 *) [D 166591072026861071 18;D 29433051594761279 19;D 15600557381477301 20;D 137814111053292171 22;D 170441479196242335 23;D 271020010873329535 24;D 526717245119305028 25;D 120977368626102139 25;D 320610495950167452 26;D 962955337105477674 27;D 32324450836829762 26;D 119922658027841335 27;D 487227721427901096 28;D 215116090496700044 28;D 102526716074674846 28;D 524408560526725371 29;D 286315233930838115 29;D 166027907842307572 29;D 101762431778051516 29;D 656181420484957047 30;D 443089117323018247 30;D 311915591021435619 30;D 227917651157089037 30;D 172156589110221106 30;D 133906860949644874 30;D 106876410390496586 30;D 872520418990253316 31;D 726524180603860509 31;D 615486154574335814 31;D 529335640042972093 31;D 461280727530573014 31;D 406639766697173726 31];
 (* 28.4 *) [D 166297519248959897 18;D 292777322620592273 20;D 154635909826659896 21;D 13612315997707982 21;D 167757414648714392 23;D 265812796741165413 24;D 514778221948366151 25;D 117818877649080316 25;D 311140586245634992 26;D 931222467881305446 27;D 311492313444454299 27;D 115156251694256003 27;D 466220123744381826 28;D 205120919588231561 28;D 974230628148637177 29;D 496590486026946272 29;D 270210501000975433 29;D 156172498645286257 29;D 954170570881177666 30;D 613394806739511884 30;D 413009002870451846 30;D 289962729188190618 30;D 211354071396001724 30;D 159286040722196813 30;D 123643623488449852 30;D 985044269565976079 31;D 802859097709010455 31;D 667547027827193097 31;D 564792703037018207 31;D 485181744280229782 31;D 42237432948134808 30;D 372006568668472653 31];
 (* 28.5 *) [D 166005512844136918 18;D 2912377418310834 18;D 153283022009002148 21;D 134458791162391434 22;D 165124830516306032 23;D 260723409247157491 24;D 503150365322660801 25;D 114753518515770737 25;D 301982207708930295 26;D 90064133212197039 26;D 300206419837747359 27;D 110595007667137835 27;D 446186981890935481 28;D 195622469326579079 28;D 92589699581741326 28;D 470334647756512089 29;D 255060282874878585 29;D 14693072593486312 28;D 894848675637967327 30;D 573509147943277836 30;D 385043459718418968 30;D 269603548817846022 30;D 196027597075954816 30;D 147401093027719513 30;D 114183715902892328 30;D 908003949719959582 31;D 738849224163831478 31;D 613424793373746034 31;D 518325753985552411 31;D 444750391557841105 31;D 386780306026896154 31;D 340347421215107386 31];
 (* 28.6 *) [D 16571503928329457 17;D 289711607137963462 20;D 15194664709369639 20;D 132820495644932103 22;D 162542563937031728 23;D 255748782777316993 24;D 491824515923105488 25;D 111778232732467413 25;D 293124072776883899 26;D 871166309471096731 27;D 289366790378099791 27;D 106229425307981919 27;D 427079949608401097 28;D 186594476170886868 28;D 880114712129134069 29;D 445548594744613677 29;D 240805234348427244 29;D 138262687082956528 29;D 839378848872463784 30;D 536320753229917895 30;D 359039144273373103 30;D 25071913621815456 29;D 181843575766622197 30;D 136424660593848644 30;D 105463089587080941 30;D 837101585006487713 31;D 680025832168397014 31;D 563752899818644713 31;D 475729130327393271 31;D 407724776107742173 31;D 354214310403115805 31;D 311405064672928321 31];
 (* 28.7 *) [D 165426085202468511 18;D 288198754707535107 20;D 150626526844646242 21;D 131207775937259976 22;D 160009482252130723 23;D 250885941800223299 24;D 480791814711412634 25;D 108890072433081648 25;D 284555340227656286 26;D 842753736581076736 27;D 278954314217642752 27;D 102050474557887348 27;D 40885323273234233 27;D 178012146843744216 28;D 836741180366455326 29;D 422145615607156828 29;D 227389863920652598 29;D 130131177954793261 29;D 787500929205812122 30;D 501640686983467299 30;D 334854143633993017 30;D 23319966796567401 29;D 168714752173518413 30;D 126285799652339775 30;D 974228856427864791 31;D 771840147862806962 31;D 625962684030712542 31;D 518160849755879958 31;D 436676955730542553 31;D 373815278728234676 31;D 324416584796613079 31;D 284944637542737677 31];
 (* 28.8 *) [D 165138637400245154 18;D 286699023263775122 20;D 149322407944489056 21;D 129620145731208552 22;D 157524482120072851 23;D 246131997918793973 24;D 470043692087276033 25;D 106086196012054703 25;D 276265596066073438 26;D 81536181679181823 26;D 268950761024666528 27;D 980495711370528255 28;D 391463446550079972 28;D 169852071588792636 28;D 795642203586780857 29;D 40004436634793768 28;D 2147622735140735 27;D 122501503881753317 29;D 738972957202418681 30;D 469293670012762959 30;D 312357102547628657 30;D 21694370105379219 29;D 156560679193727768 30;D 116919210763253555 30;D 900090083701141032 31;D 711763435135633037 31;D 576269009624545786 31;D 476309327648567345 31;D 400871055262634659 31;D 342757116535186249 31;D 297149820104731616 31;D 260751715084117725 31];
 (* 28.9 *) [D 164852682835228414 18;D 285212254039701202 20;D 148034041884254629 21;D 12805712960902329 21;D 155086488659511718 23;D 241484147028330877 24;D 459571857472856362 25;D 103363863943976365 25;D 268244835289679358 26;D 788950534268436194 27;D 259338737587723335 27;D 942185531282406771 28;D 374869481560494234 28;D 162092142797812574 28;D 75669146543981842 28;D 379168523265862349 29;D 20287391640577582 28;D 115341304297624769 29;D 693569861146881751 30;D 439117064577088594 30;D 291426418488365937 30;D 201857519518064003 30;D 145307176633180762 30;D 108264782328965922 30;D 831717342488320808 31;D 656452672718662269 31;D 530586522661985039 31;D 437887550212736447 31;D 368038580673208722 31;D 314308197224634199 31;D 272197203070317946 31;D 238630520562289866 31];
 (* 29.0 *) [D 164568208623554517 18;D 283738290729827846 20;D 146761184855870152 21;D 126518262762928309 22;D 152694454620143538 23;D 23693966657666127 23;D 449368289306329178 25;D 10072043478132124 24;D 260483444492098487 26;D 763481572363655261 27;D 250101646695598487 27;D 905496588628074232 28;D 359032377117212593 28;D 154711478660050654 28;D 719770044512757021 29;D 359446459213727317 29;D 191679372054340993 29;D 108620390022749716 29;D 651082240400426007 30;D 410959936725483965 30;D 271949499440623833 30;D 187854532971170429 30;D 134885833672804072 30;D 100267171561008464 30;D 768653534246500954 31;D 605523405701752135 31;D 488586690403662689 31;D 402610843862365511 31;D 337929840776778969 31;D 288247159946542729 31;D 249360634301191347 31;D 218402293879237056 31];
 (* 29.1 *) [D 164285202036453842 18;D 282276979443683302 20;D 145503597647428499 21;D 12500309072284916 21;D 150347359580470836 23;D 232495912922370954 24;D 439425225427095331 25;D 981533613221371578 26;D 252972185262577431 26;D 738918235983719782 27;D 241223648166752645 27;D 870355060329232579 28;D 343915202469340722 28;D 147690351509910631 28;D 684765959950320918 29;D 340810941580620509 29;D 181136136605361559 29;D 102310592257899286 29;D 611315238910529549 30;D 384682189931574966 30;D 253822079409956932 30;D 174854722854575669 30;D 125233551496130988 30;D 928754197878688012 31;D 710478409683488557 31;D 558622649789890666 31;D 449968235095620643 31;D 370218429610800542 31;D 310316319104376758 31;D 264371586464435956 31;D 228459102142309603 31;D 199903803676315864 31];
 (* 29.2 *) [D 16400365049785871 17;D 280828168660360363 20;D 144261045541139609 21;D 123511169092027451 22;D 148044209171509395 23;D 228150318787296515 24;D 429735153836050096 25;D 956601869399205513 26;D 24570217834272555 25;D 715225377748873938 27;D 232689621909238001 27;D 836690719583029534 28;D 329482944745181914 28;D 141010120570864595 28;D 651573746253816535 29;D 323198850487159666 29;D 171204427948482785 29;D 963856224210509744 30;D 57408750202503923 29;D 360153764483234614 30;D 236947587084599314 30;D 16278413255758599 29;D 116292122788880951 30;D 860425992533235062 31;D 656805554075454582 31;D 515426281826057777 31;D 41445484729577819 30;D 340471397527752461 31;D 284988862550871318 31;D 242496367711372685 31;D 209327198697183015 31;D 182985990230696294 31];
 (* 29.3 *) [D 163723541582056126 18;D 279391709184074551 20;D 143033298213887323 21;D 122042063290272565 22;D 145784034325514351 23;D 223900390799605899 24;D 420290803815064675 25;D 932385420682932061 26;D 238664888503504982 26;D 692369327751023157 27;D 224485132899036691 27;D 804436749401686111 28;D 315702403453581597 28;D 134653168813662815 28;D 62009405530887321 28;D 306550915791268486 29;D 161847004282258247 29;D 908209420260329747 30;D 539230210293884692 30;D 337253897525321423 30;D 221236563440232718 30;D 151574397869618486 30;D 108007845093919738 30;D 797254887941380551 31;D 607279622429110988 31;D 475636649148932703 31;D 38179309296410556 30;D 31315085440611967 30;D 261756026167877131 31;D 222452212161604342 31;D 191813765505728228 31;D 167512727593010919 31];
 (* 29.4 *) [D 163444863011384467 18;D 277967454100704014 20;D 141820129640316555 21;D 120595348304604722 22;D 143565890548837242 23;D 219743707123951435 24;D 41108513739055415 24;D 908861408334545935 26;D 231852110107439635 26;D 670317826722063827 27;D 216596397971289589 27;D 773529566392805521 28;D 302542091104773436 28;D 128602843665739573 28;D 590233283826721005 29;D 290811471602660194 29;D 153028995220135651 29;D 855936418626868496 30;D 506586184431215987 30;D 315870439057314527 30;D 206606124419223967 30;D 141162314520464036 30;D 100331165255017963 30;D 738842760049474662 31;D 561573803545515917 31;D 438980379249682087 31;D 351750497753143082 31;D 288056229712034186 31;D 240442560549539235 31;D 204084283630523184 31;D 1757806574889778 29;D 153359694438412799 31];
 (* 29.5 *) [D 16316760265397315 17;D 276555258735286219 20;D 140621317998378058 21;D 119170608447052402 22;D 141388857218060273 23;D 215677915175327191 24;D 402111341126691319 25;D 886007778277251517 26;D 225255953322826116 26;D 649039962436612212 27;D 209010254325005302 27;D 743908654187252908 28;D 289972139578027542 28;D 122843401326228757 28;D 561903224509319416 29;D 275928227097260071 29;D 144717744542087175 29;D 806823297941857271 30;D 476009056061793486 30;D 295899219558765597 30;D 192979465126655415 30;D 131489439828367512 30;D 932163524118748178 31;D 684822836985623393 31;D 519387493815803587 31;D 405206372775974372 31;D 324113793362420426 31;D 265003726186718555 31;D 220888029441993774 31;D 187250957203419615 31;D 161101614776438466 31;D 140413344036794213 31];
 (* 29.6 *) [D 162891748521524333 18;D 275154980610447186 20;D 13943664557726041 20;D 117767437119375459 22;D 139252036898586978 23;D 211700729413403673 24;D 393362818234478013 25;D 863803250178194014 26;D 218868830958443481 26;D 628506109182514028 27;D 201714129647587926 27;D 715516405957565057 28;D 277964211887134851 28;D 117359954457310105 28;D 535020739365162115 29;D 261852052509013012 29;D 136882663762217439 29;D 760670265388014271 30;D 447362499290864688 30;D 277243465256768301 30;D 180285402271159692 30;D 122501725718855361 30;D 866211972187410561 31;D 634857186534127961 31;D 480444163200860037 31;D 37408396437886895 30;D 298687312123466494 31;D 243824902650855139 31;D 202945546286890754 31;D 17182268298546745 30;D 147661232948133101 31;D 12856996459836181 30];
 (* 29.7 *) [D 162617288767135735 18;D 273766479405739765 20;D 138265898687641048 21;D 116385436584493357 22;D 137154554684900088 23;D 207809929214247644 24;D 384833180983506105 25;D 842227287817946316 26;D 212683445888878995 26;D 608687870141609502 27;D 194696013770921816 27;D 688297975503625169 28;D 266491419016921422 28;D 112138423037791062 28;D 509507453710793306 29;D 248536779256406422 29;D 129495095743537621 29;D 717290688510821054 30;D 420519518519429171 30;D 259813257363539312 30;D 168457951840966145 30;D 114149180600251983 30;D 805067351512826786 31;D 588634408077958986 31;D 444489397330263143 31;D 345401237221152397 31;D 275291517172261459 31;D 224365377641134944 31;D 186480619394208423 31;D 157680948269754857 31;D 135354023058402272 31;D 117734822025523518 31];
 (* 29.8 *) [D 162344211683163666 18;D 272389616917868073 20;D 137108867574190401 21;D 115024217744405661 22;D 135095557561727681 23;D 204003356816463528 24;D 376516243403831169 25;D 821260070689119933 26;D 206692779042119044 26;D 589558022531798622 27;D 187944431775824399 27;D 662201136413971935 28;D 255528241524680505 28;D 10716548817897007 27;D 485289469493589842 29;D 235939013235069481 29;D 122528187647368952 29;D 676510195613961591 30;D 395361788279345843 30;D 24352503190094216 29;D 157435939246595651 30;D 106385557786422453 30;D 748369919425590944 31;D 545867512143542917 31;D 411289101012585276 31;D 318963478174836307 31;D 253761656653023776 31;D 206483643493520562 31;D 171370096338040206 31;D 144717329544829818 31;D 124083553569606118 31;D 107821377807878164 31];
 (* 29.9 *) [D 162072505699125406 18;D 271024257021775901 20;D 135965346330265206 21;D 113683399924399381 22;D 133074213785387691 23;D 200278915338915795 24;D 368406014265944158 25;D 800882466769230319 26;D 200890077922503132 26;D 571090465369529393 27;D 181448418466444543 27;D 637176148840745922 28;D 24505045561973927 27;D 102428548715998894 28;D 462297096664752885 29;D 224017960376427338 29;D 115956772556885763 29;D 638165839734072124 30;D 371779041187587554 30;D 228301116994413894 30;D 147162639383066108 30;D 991680683449986919 31;D 695787493505042663 31;D 506291972089950393 31;D 380627849690297361 31;D 29459176184074723 30;D 233946531390137499 31;D 190049981386779283 31;D 157501198988711944 31;D 13283262651519556 30;D 113761667017535982 31;D 987505754401640235 32];
 (* 30.0 *) [D 16180215937964007 17;D 269670265632577489 20;D 134835132814729141 21;D 112362610663344912 22;D 131089712284608682 23;D 196634566867309194 24;D 360496690327361908 25;D 781076006415567987 26;D 195268845643509183 26;D 553260169719447877 27;D 175197494140663688 27;D 613175633454041507 28;D 235035063452434511 28;D 979156804002329792 29;D 440464601418234403 29;D 212735263635999292 29;D 109757259162452298 29;D 60210532156534761 29;D 349668500418312743 30;D 214069304763152829 30;D 13758544426790931 29;D 924571164215979994 31;D 647013296073385371 31;D 469663933773638737 31;D 352307376507950053 31;D 272121652533425586 31;D 215707366372011457 31;D 174945468680543163 31;D 144770641342430941 31;D 121936070993909103 31;D 104307764862610327 31;D 904501893289202084 32];
 (* 30.1 *) [D 161533161422407123 18;D 268327510668309721 20;D 13371802857084087 20;D 111061485509889215 22;D 129141262080151456 23;D 193068330607015896 24;D 352782649834867242 25;D 761822857332314542 26;D 189822830446134752 26;D 536043131305130349 27;D 169181641586767705 27;D 590154452167451995 28;D 225460227360644318 28;D 936155975294933558 29;D 419729970191978849 29;D 202054850633908759 29;D 103907528940948375 29;D 568186267050700507 30;D 328934353367337615 30;D 200762455158317249 30;D 128655556098232216 30;D 862160552486167358 31;D 601763970370386428 31;D 435758570200323187 31;D 326145183701117215 31;D 25140201429811977 30;D 198916777219205562 31;D 161061070631394707 31;D 133083822992006237 31;D 111944604151767809 31;D 956481545572486265 32;D 828542306874457276 32];
 (* 30.2 *) [D 161265500656221755 18;D 266995862013485333 20;D 132613838747151428 21;D 109779667824361491 22;D 127228091722581633 23;D 189578281099645861 24;D 345258446271915143 25;D 743105800562504442 26;D 184546015679865337 26;D 51941632536159113 26;D 163391284240616366 27;D 568069595250983559 28;D 216305207837791259 28;D 895176168638203912 29;D 400034688402834558 29;D 191942791224865958 29;D 983868403024924892 30;D 536275555675820167 30;D 309487263437925869 30;D 188318129307951553 30;D 120327703741839854 30;D 804109621922591168 31;D 559777754513933552 31;D 404368569256575765 31;D 301973267964060055 31;D 232293919871011739 31;D 183457823566088825 31;D 148296809254517783 31;D 122354091704778881 31;D 102782216177856996 31;D 877154533851610778 32;D 75902405405049538 31];
 (* 30.3 *) [D 160999166039026295 18;D 265675191483427347 20;D 131522372020354743 21;D 108516808586212993 22;D 125349448747567854 23;D 186162546500959255 24;D 33791880234118413 24;D 724908207459675566 26;D 179432610224381781 26;D 503357663616648958 27;D 157817265441259972 27;D 546880074470376824 28;D 207550305000972084 28;D 856116236842333903 29;D 381323532956195195 29;D 182367164325611784 29;D 931757392161118606 30;D 50624869579770707 29;D 291243917111285181 30;D 176678250117849607 30;D 112559880835317972 30;D 750104313246232895 31;D 520812800492233651 31;D 375302743603826057 31;D 279636950323781674 31;D 214669650265786251 31;D 169223141976839002 31;D 136561002723000196 31;D 112502069142019069 31;D 94379342926343757 31;D 804480441071885548 32;D 69539619319799449 31];
 (* 30.4 *) [D 16073414665599692 17;D 264365372789365451 20;D 130443440520036801 21;D 107272566206818747 22;D 123504599148103783 23;D 182819306917817729 24;D 330758604172692833 25;D 70721401759618107 25;D 174477039331257513 26;D 487845953294262905 27;D 152450828726453991 27;D 526546821913312702 28;D 199176803351649119 28;D 818880398612714189 29;D 363544377636250428 29;D 173297933374868508 29;D 882559758612116226 30;D 477989243611961586 30;D 274126603681350074 30;D 165788788052917463 30;D 10531310380709227 29;D 699853821299048036 31;D 48464562647916703 30;D 348384752724289575 31;D 258993801844011511 31;D 198411777375507465 31;D 156114151648440306 31;D 125769569267132007 31;D 103455034272476155 31;D 866723145987735313 32;D 737895778849001347 32;D 637155267278486524 32];
 (* 30.5 *) [D 160470431717664887 18;D 263066281504275623 20;D 129376859755270686 21;D 106046606347474849 22;D 121692826863074659 23;D 179546792801965032 24;D 323772895748321808 25;D 690007717567157416 26;D 169673935865936535 26;D 472860858038637452 27;D 147283599112816152 27;D 507032594183084075 28;D 191166919634224106 28;D 78337793808726875 28;D 346648010543010222 29;D 164706829844502684 29;D 836104268843762372 30;D 451388262615046411 30;D 258062825232791757 30;D 155599470185032259 30;D 985511882768841124 31;D 653088830659987112 31;D 45106969172321596 30;D 323451927939040098 31;D 239912657211010039 31;D 183412322624200322 31;D 144040326730671216 31;D 115845390056759053 31;D 951463595058766499 32;D 796028519437983082 32;D 676885203511611137 32;D 583841183304517326 32];
 (* 30.6 *) [D 160208010558071566 18;D 261777795029444788 20;D 128322448543006338 21;D 104838601742430714 22;D 119913433281610745 23;D 176343283398517048 24;D 316956873533981015 25;D 673274320651064713 26;D 165018131931267961 26;D 458382860663265336 27;D 142307565308469389 27;D 488301881659173588 28;D 18350375360986674 27;D 749522922060379164 29;D 330587962798345706 29;D 156567244261120021 29;D 792230228712947782 30;D 426343820650530631 30;D 2429849346250616 28;D 146063510742033938 30;D 92240542405629435 30;D 609559888058170697 31;D 419894084139760102 31;D 300354191979431093 31;D 222272708919693458 31;D 169571985292760747 31;D 132918529620633601 31;D 106717726025254235 31;D 875149950039372743 32;D 731176058509216163 32;D 620977370597443406 32;D 535033451551696579 32];
 (* 30.7 *) [D 159946872632956549 18;D 260499792561742801 20;D 127280028938205464 21;D 103648232026801097 22;D 118165736762690859 23;D 173207105247126985 24;D 310305881311045015 25;D 656999347289540833 26;D 160504650854805664 26;D 444393227634145201 27;D 137515062808930152 27;D 47032082254187064 27;D 176171241574243486 28;D 717233933803194209 29;D 315320347795464115 29;D 148854124234913882 29;D 750786806716218792 30;D 402760521843448704 30;D 228829799414873533 30;D 137137361529362395 30;D 863499758826981059 31;D 569035900772500431 31;D 390942311543042697 31;D 278953065390264241 31;D 20596267538872512 30;D 156799434683596644 31;D 122672400071477718 31;D 983216840279091549 32;D 805049970205261656 32;D 671677365748419297 32;D 569741148768888746 32;D 490347752934124495 32];
 (* 30.8 *) [D 159687007517978144 18;D 259232155061584575 20;D 126249426165673551 21;D 102475183569207994 22;D 116449072169479035 23;D 170136630733873422 24;D 303815405199041768 25;D 641168806351045367 26;D 156128699522965021 26;D 430873975201196457 27;D 132898757829746442 27;D 453057121414662888 28;D 169154112458339733 28;D 68643382246022313 28;D 300803710314786299 29;D 141543879027493737 29;D 711632402405376197 30;D 380549070925739119 30;D 215538489805990007 30;D 128780480721911453 30;D 808505233409523038 31;D 531302751075837614 31;D 364051188193866394 31;D 259120752681901626 31;D 190880036891729365 31;D 145010660782076158 31;D 113231795395568775 31;D 905977281241282067 32;D 740650964822760362 32;D 617085291553715345 32;D 522782161793518343 32;D 44943280575026207 31];
 (* 30.9 *) [D 159428404906965571 18;D 257974765221565575 20;D 125230468553542427 21;D 101319149309007586 22;D 114762790417896528 23;D 167130276691997276 24;D 297481068861927859 25;D 625769177144418046 26;D 151885661045965765 26;D 417807837096412877 27;D 128451632031973794 27;D 436479972073719327 28;D 162437846361438549 28;D 657049467067527751 29;D 286998884874382316 29;D 134614290222826294 29;D 674634056848089476 30;D 359625867639526393 30;D 203055988859534015 30;D 12095511863978215 29;D 757152810855547284 31;D 496162017579857964 31;D 33906980901766466 30;D 24073930173386235 30;D 176930333703063333 31;D 134128378524399464 31;D 104532277445018708 31;D 834912321350125417 32;D 681483043492471412 32;D 566990418974898152 32;D 479739629985385539 32;D 411967505545086622 32];
 (* 31.0 *) [D 159171054610202181 18;D 256727507435754446 20;D 124222987468358203 21;D 100179828597962298 22;D 113106258038949737 23;D 164186503049688795 24;D 291298628890613816 25;D 610787392150043348 26;D 147771087738282932 26;D 405178233721564737 27;D 124166967999010408 27;D 420559984388408688 28;D 156008635374557304 28;D 629011554298884774 29;D 273868862725184176 29;D 12804442809551405 28;D 639666902234268643 30;D 339912629074938153 30;D 191330923331260251 30;D 113626119228579509 30;D 709192561101596947 31;D 463429795069652857 31;D 315858604470130246 31;D 223699830488852636 31;D 16402652132466252 30;D 124081481194539771 31;D 965146424205569467 32;D 769520699587503311 32;D 627115505949075897 32;D 521017850493989511 32;D 440283485010893624 32;D 377658314148298945 32];
 (* 31.1 *) [D 158914946552739077 18;D 255490267769626895 20;D 123226817251730836 21;D 990569270462227268 23;D 111478856754352231 23;D 161303811523197425 24;D 28526397035471876 24;D 596210820437802899 26;D 143780694400079502 26;D 392969242752291488 27;D 120038335425603754 27;D 405269114970529595 28;D 149853346561291529 28;D 602254369103286275 29;D 261378666940357774 29;D 121814573298583595 29;D 606613647935307969 30;D 321336037956276596 30;D 18031531362515952 29;D 106760736063442822 30;D 664392264548152955 31;D 432935605090461161 31;D 294288469598749887 31;D 20790181546778389 30;D 152088378089039484 31;D 114804538850729064 31;D 891244898961349729 32;D 709342404284174698 32;D 577153539182535996 32;D 478824270658017401 32;D 404111734249954296 32;D 346236876057417084 32];
 (* 31.2 *) [D 158660070772738475 18;D 254262933930625465 20;D 122241795158502874 21;D 979501563724887421 23;D 109879983064995995 23;D 158480744353606102 24;D 279373102516834675 25;D 582027251742413978 26;D 139910351885806638 26;D 381165571089236758 27;D 116059577981999098 27;D 390580601442824733 28;D 143959486971112528 28;D 576715597450363151 29;D 249495235084684836 29;D 115906143518916489 29;D 575364100514573688 30;D 303827415035676576 30;D 169964341466249468 30;D 100328461786803156 30;D 622536120341443863 31;D 404521390167501036 31;D 274239961372682866 31;D 19325243708691659 30;D 141041960825928622 31;D 106237338027618089 31;D 823118277541889233 32;D 653955237728346027 32;D 531235195506213049 32;D 440095260711262925 32;D 370948052988672681 32;D 317457842257014363 32];
 (* 31.3 *) [D 1584064174198462 16;D 253045395239330188 20;D 121267761296396216 21;D 96859234258223416 22;D 10830904785184328 22;D 155715883085677278 24;D 273622154702867794 25;D 568224881168099792 26;D 136156080946832758 26;D 36975252809047774 26;D 112224800818233462 27;D 376468900109463316 28;D 138315170567748128 28;D 552336140450012745 29;D 238187308983771723 29;D 110301624772574212 29;D 54581471536478695 29;D 287322413887789562 30;D 160236134000164408 30;D 943008699735421785 31;D 583423551326805468 31;D 378040585108236372 31;D 255602558834356816 31;D 17966597717128801 30;D 13081910463941069 30;D 983244592764807745 32;D 760307100076212811 32;D 602971669932987316 32;D 489028627477316763 32;D 404542843450044448 32;D 340539584621698872 32;D 291096883317721376 32];
 (* 31.4 *) [D 15815397675359272 17;D 251837542601225548 20;D 120304558567096988 21;D 95783884205797663 22;D 106765475988826035 23;D 153007847387240908 24;D 268007372322298702 25;D 554792294495818749 26;D 132514046335602984 26;D 358716000022903966 27;D 108528358675494221 27;D 362909626842554201 28;D 132909086962378408 28;D 529059939158929549 29;D 227425331144542541 29;D 104984507034680055 29;D 517868177812301828 30;D 271760736523370988 30;D 151091563123880928 30;D 886514684943524212 31;D 546868098270936646 31;D 353357259358690757 31;D 238273981067533116 31;D 167063264437203301 31;D 121356963171432042 31;D 910148893951838717 32;D 702389047415884482 32;D 556035956993879753 32;D 450229557656642633 32;D 371903238417235684 32;D 312654930776921597 32;D 266948875216018922 32];
 (* 31.5 *) [D 157902739141822107 18;D 250639268479049568 20;D 119352032608739799 21;D 947238354004475107 23;D 105248705967354886 23;D 150355293907654931 24;D 262525113032464305 25;D 541718454067499176 26;D 128980551159437714 26;D 34804242567341738 26;D 104964844573266885 27;D 34987950100944256 27;D 127730471848031973 28;D 50683380943010075 28;D 217181347407953561 29;D 999392239193493226 30;D 491433011680663979 30;D 257085868354689714 30;D 142494058941233026 30;D 833555635191930577 31;D 512696396528899986 31;D 330345324865401684 31;D 222159558381709191 31;D 155371164063687623 31;D 11259758602902738 30;D 842616654644087025 32;D 648975896431785789 32;D 512821501575217671 32;D 414558963095095847 32;D 341934809282135392 32;D 287082314857143724 32;D 244826242772060851 32];
 (* 31.6 *) [D 157652695059148381 18;D 249450466865711216 20;D 118410031739753857 21;D 93678822575929837 22;D 103758189532054068 23;D 147756915173926443 24;D 257171843041214546 25;D 528992685222886025 26;D 125552031472655004 26;D 33771877306386724 26;D 101529079042698361 27;D 337356292275589307 28;D 122769079037802888 28;D 485607286201845036 29;D 20742891544233703 28;D 951510961445199089 30;D 466423213447152141 30;D 243244831152133928 30;D 134409436319359669 30;D 78390133368277711 30;D 480747228864188975 31;D 308887804335762403 31;D 207171652484592076 31;D 144522107791061382 31;D 104487530328612671 31;D 780215480488996327 32;D 599710728019353981 32;D 473028434982755062 32;D 381760956169871635 32;D 314416186828592438 32;D 263627903936254949 32;D 224557446930315045 32];
 (* 31.7 *) [D 157403835085438639 18;D 248271033257762689 20;D 117478406904034477 21;D 926485858837661748 23;D 102293391327352503 23;D 145211438523137064 24;D 251944133542535063 25;D 516604663265710055 26;D 122225051096247794 26;D 327732517216509746 27;D 982160998782062795 28;D 325318770127275209 28;D 118015154015351094 28;D 46533247666083705 28;D 198143018711386369 29;D 90606278534534703 29;D 442757910257077485 30;D 230187952729913433 30;D 126805733598421527 30;D 737337114784629515 31;D 45087064862034854 30;D 288876155195013194 31;D 193229121755758892 31;D 134453661276635591 31;D 969775035635870532 32;D 72254721144247823 31;D 55426536660665384 31;D 436381402041768411 32;D 351600844977803255 32;D 289144552413726329 32;D 242114275263490807 32;D 205985603318113611 32];
 (* 31.8 *) [D 157156149904322457 18;D 247100864629413505 20;D 116557011617404672 21;D 916328707659678162 23;D 100853788554574567 23;D 142717625069868936 24;D 246838657279954648 25;D 50454440093694074 25;D 118996296654865377 26;D 318071618919502871 27;D 950211523808777214 28;D 313746655967248536 28;D 113459408911625813 28;D 445963921748951372 29;D 189299985574662594 29;D 862917103300639805 30;D 420361040182207128 30;D 21786865218995872 29;D 119653062577312808 30;D 693662778086338562 31;D 422927167893908768 31;D 270209644910937944 31;D 180256828048045995 31;D 125108125705148797 31;D 900220352331350188 32;D 669245166526573843 32;D 512338031756434012 32;D 40262753160290786 31;D 323863357940469646 32;D 265934068073281557 32;D 222379014829835677 32;D 188967220620659018 32];
 (* 31.9 *) [D 156909630301727 15;D 245939859407073675 20;D 11564570191533251 20;D 906314278311389475 23;D 994388706391868272 24;D 140274268707378479 24;D 241852185232773637 25;D 492802236373884423 26;D 115862572821340434 26;D 30872450444452049 26;D 919396800686273158 28;D 302620577644781674 28;D 109092998826885783 28;D 427458465516846243 29;D 180877413200755378 29;D 82195068590521168 29;D 399161053222492284 30;D 206243239637550015 30;D 112923468963130033 30;D 652691580590792608 31;D 396787005773908585 31;D 252794773700073793 31;D 168185181730997322 31;D 116432170897011528 31;D 835791748823510632 32;D 61997161356891193 31;D 473651184096537126 32;D 37153457696647379 31;D 29835101859718838 31;D 244614440648656706 32;D 204273436545694448 32;D 173371048317114757 32];
 (* 32.0 *) [D 156664267164437336 18;D 24478791744441355 19;D 114744336301870974 21;D 896440127338579227 23;D 980481389078693443 24;D 137880195141313679 24;D 236981583420357018 25;D 481368821534841523 26;D 112820797759469811 26;D 299680046171004982 27;D 889673158294303995 28;D 291922026289451452 28;D 10490749942190457 27;D 409775131858144266 29;D 172854095993984152 29;D 783047244886036094 30;D 379090631654969137 30;D 195270729360388865 30;D 106590802532258064 30;D 614249301272570967 31;D 372329392095926968 31;D 236544740944407249 31;D 156949721954977655 31;D 108376497382547699 31;D 776102143982625015 32;D 574415445316237627 32;D 43794954931591721 31;D 34288921185678429 31;D 274882657768964349 32;D 225029608405024224 32;D 187661411577922057 32;D 159077024239747311 32];
 (* 32.1 *) [D 156420051478681435 18;D 243644939997928312 20;D 113852775699788012 21;D 886703860572400385 23;D 966811062750919254 24;D 135534260954817172 24;D 232223809819934273 25;D 470235111069943455 26;D 109867998756200407 26;D 290927544073881809 27;D 860998734952164696 28;D 281633315325340941 28;D 100894885706764352 28;D 392875008186999779 29;D 165209958254879935 29;D 746097023100594373 30;D 360086428430862979 30;D 184912665535225171 30;D 100630596306477549 30;D 578173372660848442 31;D 349441922510948068 31;D 221378951937362112 31;D 146490729357263981 31;D 100895525116926104 31;D 720794325845062874 32;D 532290044870807608 32;D 404998305338145725 32;D 316495468804041916 32;D 253292051378817336 32;D 207036539608884046 32;D 172418298305637481 32;D 145975313254542896 32];
 (* 32.2 *) [D 156176974328739355 18;D 242510829702995321 20;D 112970883401855452 21;D 877103131985883101 23;D 953372969388870734 24;D 133235352703902093 24;D 227575911393537458 25;D 459392351619653569 26;D 107001308034792295 26;D 282456708033740576 27;D 833333398152061154 28;D 271737541549306104 28;D 970475119598768516 29;D 376721135648905303 29;D 157925990812744282 29;D 710996409843147946 30;D 342088822412119134 30;D 175132959593211449 30;D 95019954098839854 30;D 544312074512416225 31;D 328019960993992107 31;D 207222561844449306 31;D 136752868654350607 31;D 939471066999167116 32;D 669538602006978938 32;D 493331324823455857 32;D 374581419041690029 32;D 292173307911462123 32;D 233426673220792018 32;D 19050413344524432 31;D 158429964185683293 32;D 133965429124460715 32];
 (* 32.3 *) [D 155935026895576132 18;D 241385490550412926 20;D 112098525023266346 21;D 867635642580417777 23;D 940162460855222907 24;D 130982386042030365 24;D 223035021219890004 25;D 448832071523239035 26;D 104217958740930754 26;D 274257640930551697 27;D 806638668086051662 28;D 262218548163486067 28;D 933580927138435689 29;D 361278405479907776 29;D 150984191385428175 29;D 677647579832595543 30;D 325041689322321411 30;D 165897738437277212 30;D 897374458315201822 31;D 512523785012035307 31;D 307966086216476632 31;D 194006054009141723 31;D 127684858769475349 31;D 874922631384118283 32;D 622030638021729002 32;D 457295925761839866 32;D 346500120046501043 32;D 269757305009515317 32;D 215146552889682301 32;D 175312214487028257 32;D 145591891577164108 32;D 122955432312030105 32];
 (* 32.4 *) [D 15569420045549789 17;D 24026882786340957 19;D 111235568455151205 21;D 85829913930133793 22;D 927174996027848936 24;D 128774304872864142 24;D 218598355727231717 25;D 438546070920304318 26;D 101515281094138293 26;D 26632082248394253 26;D 780877644776369475 28;D 253060889658386115 28;D 898196847484960174 29;D 346513461153095944 29;D 144367508437194496 29;D 645958154363464999 30;D 308892187364715173 30;D 15717520276237236 29;D 847630100717463093 31;D 482676285280978654 31;D 289189578481781634 31;D 181664849960097675 31;D 119239168332492012 31;D 814949403491268963 32;D 577989468529359024 32;D 42395956102702802 31;D 320571500138753896 32;D 249095449135289815 32;D 198323229923669187 32;D 161350612689227888 32;D 13380836026662452 31;D 112861197112298135 32];
 (* 32.5 *) [D 155454486378830719 18;D 239160748275112366 20;D 110381883819164458 21;D 849091413981755517 23;D 91440613801602587 23;D 126610080530200433 24;D 214263212023230781 25;D 428526412229223585 26;D 988906986971982347 27;D 258637093804907918 27;D 756014938629010038 28;D 244249798448651674 28;D 864256700349559457 29;D 332394605973391788 29;D 138059788320200893 29;D 615840883202662415 30;D 293590556532266658 30;D 14893549478276304 29;D 800778632724846817 31;D 454646113291804789 31;D 271605944177359474 31;D 170138948683380269 31;D 11137173456205124 30;D 759217847452351518 32;D 537155667103697106 32;D 393115495685553057 32;D 296627227868353791 32;D 23004804013080833 31;D 182838795979603825 32;D 148518321574110901 32;D 122991700066958979 32;D 103605742085604434 32];
 (* 32.6 *) [D 155215876128621851 18;D 238061159706464571 20;D 109537343423113296 21;D 840010302313828585 23;D 901851551457327601 24;D 12448871098413661 23;D 21002696531829161 24;D 418765410987020979 26;D 963417249966437609 27;D 251197642625583199 27;D 732016604239979451 28;D 235771153169101547 28;D 831697395778403057 29;D 318891715802432516 29;D 132045725498837447 29;D 587213345908713122 30;D 279089930701769062 30;D 141150574719994096 30;D 756644152421016776 31;D 428317963580214431 31;D 255136474930685936 31;D 159372592914271221 31;D 104041703698865379 31;D 707419363849892983 32;D 499289661955039452 32;D 36457314868589778 31;D 27451236873472989 31;D 212486677936568808 32;D 168585017561884762 32;D 136722727907224441 32;D 113061607439414786 32;D 951186182872377923 33];
 (* 32.7 *) [D 154978361259362701 18;D 23696997134458167 19;D 108701821717601854 21;D 831053682846667326 23;D 889506999892628048 24;D 122409220072550672 24;D 205887066438718485 25;D 409255627035925894 26;D 938659598876917241 27;D 24399398917536845 26;D 708850077292584723 28;D 227611448543720406 28;D 800458781058196442 29;D 305976156614759402 29;D 126310815668942778 29;D 559997671337873762 30;D 265346161666324541 30;D 133794105450951808 30;D 715061904019396274 31;D 403584129415184187 31;D 239707838871981146 31;D 149313960379000163 31;D 972111913047766156 32;D 659268382836442105 32;D 464170185682975773 32;D 338156808085927362 32;D 254084302182509665 32;D 196293335871970166 32;D 155462532466547336 32;D 1258789067423094 30;D 103944520613915768 32;D 873353502722125152 33];
 (* 32.8 *) [D 154741933415733343 18;D 235887093621536055 20;D 107875195253664501 21;D 822219476010109954 23;D 877368343216727445 24;D 120370656757014796 24;D 201841039426339385 25;D 39998985604247685 25;D 914610864573096645 27;D 237017972673266088 27;D 686484114392632331 28;D 21975776674514334 27;D 770483495636344663 29;D 293620706604723448 29;D 120841311595865469 29;D 534120274183131135 30;D 252317654318437221 30;D 126841344757939707 30;D 675877544228705224 31;D 380343984338205158 31;D 225251701605398876 31;D 13991487807843779 30;D 908450608764785069 32;D 614500606031356388 32;D 431592848242612822 32;D 313704450078196329 32;D 23521172736630585 31;D 181359510848412514 32;D 143380113687566147 32;D 115908976241355507 32;D 955730481628296625 33;D 801969252922905539 33];
 (* 32.9 *) [D 15450658433136798 17;D 234812438193560534 20;D 107057342641362723 21;D 813505643163624236 23;D 86543153520220108 23;D 118372094402293985 24;D 197886479221332578 25;D 390961121335663941 26;D 891248678593983478 27;D 230261738407784817 27;D 664888735696418438 28;D 212197750166717405 28;D 741716833613938964 29;D 281799482580557063 29;D 115624181506492725 29;D 50951160746815648 29;D 239965212249766825 30;D 120269044662068562 30;D 638946458616140704 31;D 358503500212997989 31;D 211704374673631964 31;D 13113055785466523 30;D 849107193460283667 32;D 572871385378318866 32;D 401368823175708253 32;D 291066653309883294 32;D 217773750318915871 32;D 167585444059014552 32;D 132253995067270771 32;D 106741507158283439 32;D 878854464212665537 33;D 736493265027032845 33];
 (* 33.0 *) [D 154272305827641016 18;D 233745917920661146 20;D 106248144509320841 21;D 80491018566961412 22;D 853692621094153064 24;D 116412630078613507 24;D 194021049425130671 25;D 382162666051187465 26;D 868551443163514767 27;D 223717725377175848 27;D 644035170193969091 28;D 204919575533513634 28;D 714106613395357963 29;D 270487870398021799 29;D 110647069880789064 29;D 486105929989147352 30;D 228251893083613099 30;D 114055357357789831 30;D 604133124451142529 31;D 337974799140018782 31;D 199006489469843917 31;D 122919351618372222 31;D 793779281536207811 32;D 534154228100288057 32;D 373323637972775742 32;D 270105600699328358 32;D 201659045775081917 32;D 154879406235893967 32;D 122007253461573159 32;D 983109823151413683 33;D 808251415467121363 33;D 676431063611984936 33];
 (* 33.1 *) [D 154039089812473303 18;D 232687446846630042 20;D 105447483465176521 21;D 796431143990433645 23;D 842147735273637774 24;D 114491383885909448 24;D 190242480140403235 25;D 373587945569470839 26;D 846498302415198117 27;D 217378654464106609 27;D 623895803517147299 28;D 197911929282703757 28;D 687603054102278219 29;D 259662459200995613 29;D 105898260498124406 29;D 463841087763528986 30;D 217142872902703017 30;D 108179747300283092 30;D 571310516767288422 31;D 318675736786783731 31;D 187102694706646176 31;D 115242524741207018 31;D 742186286822856971 32;D 498139417764088783 32;D 347296060179249041 32;D 250694161597240433 32;D 186765087468479997 32;D 143157042066216821 32;D 1125692426374024 30;D 905573018019040858 33;D 743402923756262049 33;D 621329967351557735 33];
 (* 33.2 *) [D 153806928279158193 18;D 231636940179449366 20;D 10465524405692269 20;D 788066596808432343 23;D 830793098987588715 24;D 1126074982993061 22;D 186548565885240022 25;D 365230620235600401 26;D 825069114773594849 27;D 211237517120146843 27;D 60444412814901023 27;D 191163984147524006 28;D 66215865838244447 28;D 249300979250375049 29;D 101366641602769847 29;D 442658308606041723 30;D 206605319178090487 30;D 10262290902883887 29;D 540359554615553521 31;D 300529514866786589 31;D 17594137569553955 30;D 108064046233377572 31;D 694067809399756744 32;D 464632742270791347 32;D 323137071543956104 32;D 232715047732610558 32;D 17299744123726853 31;D 132340768815763917 32;D 103875074527989569 32;D 834253299982966474 33;D 683833905676354542 33;D 570775525364044378 33];
 (* 33.3 *) [D 15357581330520698 17;D 230594314272077371 20;D 103871312735118164 21;D 779814660168377528 23;D 819625018143168757 24;D 110760137535092058 24;D 182937163578772507 25;D 357084548349874646 26;D 804244426442844633 27;D 205287564536645862 27;D 585654695917196246 28;D 184665376882637799 28;D 637728101264748594 29;D 239382243135799961 29;D 970416730614438669 30;D 422502009010125333 30;D 196608271645187855 30;D 973666903385409159 31;D 511168584700384062 31;D 283464320667724748 31;D 165474393822785632 31;D 101350394433790824 31;D 649182144626015519 32;D 433454320326325491 32;D 300708923136634796 32;D 216060036925791057 32;D 160269115747416265 32;D 122359224627261883 32;D 95865143844774518 32;D 768644808515724757 33;D 629108948319122435 33;D 524388259806190121 33];
 (* 33.4 *) [D 153345737051213378 18;D 229559486603608166 20;D 103095577815944941 21;D 7716734866416194 21;D 808639881164527144 24;D 108948486936494005 24;D 179406190595582227 25;D 349143779418131916 26;D 784005445954715751 27;D 199522297279721445 27;D 567503072660169489 28;D 178406187072092914 28;D 614268124732093476 29;D 229886090177018127 29;D 929133553937419666 30;D 403319612566016614 30;D 187122530610348121 30;D 923940204396141841 31;D 483632899792101187 31;D 267412991684957168 31;D 155656844729950965 31;D 950703770385536592 32;D 607304904925928478 32;D 404437518624861233 32;D 27988426493776088 31;D 200629259048266946 32;D 148499966076879687 32;D 113146762343541501 32;D 884846923857594523 33;D 708283381506323 30;D 578828963078032119 33;D 481820688211069578 33];
 (* 33.5 *) [D 15311669175973665 17;D 228532375760796753 20;D 102327929445090699 21;D 763641264511384684 23;D 797834156910017471 24;D 107171752378573134 24;D 175953622886350326 25;D 341402547651489756 26;D 764334019730838452 27;D 19393545536816368 26;D 549965794960869076 28;D 172376916964259394 28;D 591737437702252973 29;D 220793333833247952 29;D 889722005637161662 30;D 385061379196874218 30;D 178120552206208733 30;D 876888427689219789 31;D 45765428949629159 30;D 252312703559576608 31;D 146446833820184053 31;D 891949643844237325 32;D 568227745620755879 32;D 377427952600335126 32;D 260545343932898355 32;D 186330539164185944 32;D 13761614580092421 31;D 104642985055782418 32;D 816834096918876396 33;D 652743078168064826 33;D 532628124250749456 33;D 442754601375822472 33];
 (* 33.6 *) [D 152888669754203041 18;D 227512901419941196 20;D 1015682595624357 19;D 755716216978603644 23;D 787204392647997085 24;D 10542915969159409 23;D 172577493162304176 25;D 333855265705572174 26;D 745212608615846702 27;D 18852100877408432 26;D 533020328847719405 28;D 166568472281143316 28;D 570096621124556482 29;D 21208571194971942 28;D 85209204427822282 29;D 367680244540785592 30;D 169576350146379217 30;D 832360521414113715 31;D 433140621134185717 31;D 238104679653097792 31;D 137805267815388602 31;D 836971349874141784 32;D 531757186783052053 32;D 352282564173665828 32;D 242583265229096655 32;D 173078793206231211 32;D 127549603582601086 32;D 967923198974830185 33;D 754150669880143941 33;D 601632994873485377 33;D 490171068003953123 33;D 406898574710880256 33];
 (* 33.7 *) [D 15266166343782514 17;D 226500984329113986 20;D 100816461867523828 21;D 74789660138769378 22;D 776747212089392139 24;D 10371995410224028 23;D 169275889141114048 25;D 326496518649723845 26;D 726624265340121439 27;D 183273148327116807 27;D 516645030368075316 28;D 160972143952309565 28;D 549308037916795703 29;D 203745839680722893 29;D 816158207409547261 30;D 35113166884992841 29;D 161465403560179302 30;D 790214359509528368 31;D 410005448648613283 31;D 224733920713378841 31;D 129695661185531412 31;D 785517324137957021 32;D 497713523720512996 32;D 328868770448865117 32;D 225897311156188198 32;D 160795471921122341 32;D 118237620605454947 32;D 895436268979159685 33;D 696371816055757022 33;D 554594349013091853 33;D 451150329377991987 33;D 373985692883705517 33];
 (* 33.8 *) [D 152435665292538855 18;D 225496546290734854 20;D 10007243178579811 20;D 740180708471741388 23;D 766459313475274033 24;D 102043399692072394 24;D 166046951851985776 25;D 31932105815711394 25;D 708552612872701264 27;D 178186277003896982 27;D 500819107944017327 28;D 155579590726324093 28;D 529335747482337122 29;D 195757164938015919 29;D 781839366283709744 30;D 335373494818669574 30;D 153764570516172151 30;D 750316191501207336 31;D 388167647598921049 31;D 212148953199776405 31;D 122083956360001271 31;D 737353326317286726 32;D 465929819276499862 32;D 307063677794238983 32;D 210394313724516179 32;D 149408049170848435 32;D 109622385490552244 32;D 828498399770315148 33;D 643107093222602779 33;D 511297808109008478 33;D 415283996936569748 33;D 343771469343363452 33];
 (* 33.9 *) [D 152210667877957634 18;D 224499510144477493 20;D 993360664355815727 22;D 732566861616539383 23;D 75633746771775214 23;D 100398778872649078 24;D 162888873997784381 25;D 312323796907017612 26;D 690981823626709248 27;D 173255001585432189 27;D 48552258642499363 27;D 150382822615152189 28;D 510145424562087387 29;D 188103926222370298 29;D 749058494369988135 30;D 320365813790189838 30;D 14645200686933776 29;D 712540127571292211 31;D 367551074446126528 31;D 200301594940395763 31;D 114938356712796253 31;D 692261210571799053 32;D 436250971668272438 32;D 286753356188698698 32;D 19598807618569839 31;D 138849550997355946 32;D 101650603619272349 32;D 76667637409188002 32;D 593997622717824799 33;D 471441043364765985 33;D 382313566426789283 33;D 31603194391223107 32];
 (* 34.0 *) [D 151986663830343628 18;D 223509799750502814 20;D 986072645957848606 22;D 725053416142956463 23;D 746378516592544764 24;D 987853918767499183 25;D 159799898372108922 25;D 305499803190931128 26;D 67389659948134173 26;D 168474124665799675 27;D 470736272756141511 28;D 145374185129333181 28;D 491704282189757021 29;D 180771112704423108 29;D 717742448849451428 30;D 306070839826508079 30;D 139507090091032477 30;D 676767656554783784 31;D 348084248457382534 31;D 189146736891290201 31;D 108229171388895554 31;D 650037785680779058 32;D 408532852075283797 32;D 267832169121081905 32;D 182598839787303651 32;D 129058122153289376 32;D 942731380391699544 33;D 709571393076736219 33;D 548713502759977633 33;D 434746488614363414 33;D 352001976422138654 33;D 29056194309130066 32];
 (* 34.1 *) [D 151763645861595444 18;D 222527339973011574 20;D 978859266743225279 22;D 717638758607128784 23;D 736579370981645255 24;D 97202556265161273 24;D 156778316329320458 25;D 298844295714528028 26;D 657282152586081002 27;D 163838636996406116 27;D 456441723185225256 28;D 14054634426400192 27;D 47398099853185406 28;D 173744426428861537 29;D 687821764330097779 30;D 292452791159719781 30;D 132910347763509775 30;D 642887194679747221 31;D 329700054677297469 31;D 178642139857192683 31;D 101928671108959667 31;D 610493758162445891 32;D 382641506642089731 32;D 250202154705269564 32;D 170152792128343342 32;D 119976627071762025 32;D 874446793645925172 33;D 656816298875183254 33;D 506951436337075408 33;D 400959287261975983 33;D 324131810388710364 33;D 267173489058134839 33];
 (* 34.2 *) [D 151541606758252209 18;D 221552056664109365 20;D 971719546772204343 22;D 710321306117980909 23;D 72693700916455313 23;D 95649606448505097 24;D 153822466305603293 25;D 292352638587799328 26;D 641124186914332724 27;D 159343710150791162 27;D 442621211935013334 28;D 135892272197951336 28;D 456945647406063172 29;D 167010246523355161 29;D 659230458066740209 30;D 279477778573020511 30;D 126643390441853403 30;D 610793663017587602 31;D 312335466523493204 31;D 168748245116383298 31;D 960109541539520128 32;D 573452752178859879 32;D 358452417976676393 32;D 233772454018481406 32;D 158581613812606968 32;D 111552282496073566 32;D 8112344229844214 31;D 608073024522094141 33;D 468432555670352087 33;D 369845411291622426 33;D 298503650955301581 33;D 245694344552782185 33];
 (* 34.3 *) [D 151320539380513597 18;D 220583876647977153 20;D 964652521783971558 22;D 703099505671597791 23;D 717448475156591119 24;D 941258932236097008 25;D 150930732389214594 25;D 286020336496041367 26;D 625408880535154669 27;D 15498468949567106 26;D 429257701271597008 28;D 131405233669935722 28;D 440569632283174188 29;D 160555595300581459 29;D 631905846014028098 30;D 267113700288806829 30;D 120688848605806784 30;D 580388091748827626 31;D 295931286665631245 31;D 159427997969120883 31;D 904518217908024923 32;D 538750400506740336 32;D 335849821608209908 32;D 218458782986921444 32;D 147822060363245963 32;D 103736319217673723 32;D 752708865981738351 33;D 563030252221075579 33;D 43290042678560946 32;D 341189937785909494 33;D 274934573392161986 33;D 225966681957077744 33];
 (* 34.4 *) [D 151100436661275548 18;D 219622727705340696 20;D 957657242901027908 22;D 695971833501984138 23;D 708110877092878234 24;D 926307833239394902 25;D 148101542938149304 25;D 279843030044661216 26;D 610122868573139589 27;D 150757087454595847 27;D 416334812902636971 28;D 127078772998307981 28;D 424825623588560499 29;D 154368106148199699 29;D 605788369081906781 30;D 255330142967973322 30;D 11503031344227385 29;D 551577249479114089 31;D 280431904941594069 31;D 150646683300169469 31;D 852286624552222115 32;D 506233501290231039 32;D 314726073221027957 32;D 204182944434201262 32;D 137815576606602443 32;D 964836705792195994 33;D 698514604893457605 33;D 521401262799725881 33;D 400119219117046671 33;D 314795469635749241 33;D 253256766421178673 33;D 20784586588604341 32];
 (* 34.5 *) [D 150881291605181365 18;D 218668538558232356 20;D 950732776339990019 22;D 688936794447761553 23;D 698921385656576387 24;D 911636589836181082 25;D 145333369243516113 25;D 273816491271062225 26;D 595253226827845247 27;D 146656577051237066 27;D 403836800642825011 28;D 122906701711872587 28;D 40968749912941345 28;D 148435993107741583 29;D 580821429001138511 30;D 244098288449584733 30;D 109652281216310964 30;D 524273295960375592 31;D 26578507215212237 30;D 142371772311765586 31;D 803203440585819659 32;D 475759235693501215 32;D 294981062806572899 32;D 190872377175779105 32;D 128507940957892692 32;D 897526855908655032 33;D 6483236469517563 31;D 482921960532940028 33;D 369872026342630139 33;D 290480688258836174 33;D 233316269501465396 33;D 191199339535060394 33];
 (* 34.6 *) [D 150663097287687907 18;D 217721238855038969 20;D 943878203128645732 22;D 681992921334367418 23;D 689877232550073791 24;D 897239175145961161 25;D 142624724236986183 25;D 267936619317151947 26;D 580787456025432105 27;D 142678985719934326 27;D 391748524286974243 28;D 118883086761525358 28;D 395130287483551871 29;D 14274802204912939 28;D 556951233242406146 30;D 233390825883516594 30;D 104540101004314805 30;D 498393456683809053 31;D 251941688656488695 31;D 134572779644303215 31;D 757071138327099164 32;D 447194441941735171 32;D 276521672174156365 32;D 17845973928893128 31;D 119848937247641304 32;D 835048646834021969 33;D 601833354018861295 33;D 447349058852163725 33;D 341959325815593729 33;D 268079027182932424 33;D 214971816667096737 33;D 175905605870852342 33];
 (* 34.7 *) [D 150445846854146595 18;D 216780759155829602 20;D 937092618829111955 22;D 675138774371332674 23;D 68097570900781247 23;D 883109708965304105 25;D 139974161240739593 25;D 262199436256282035 26;D 566713466676377032 27;D 138820289371709948 27;D 380055424634113814 28;D 115002239283847242 28;D 38113011419468229 28;D 137293483352927125 29;D 534126648466155269 30;D 223181868930538255 30;D 996799255779184141 31;D 473859717915296789 31;D 238855606767203287 31;D 127221130158430002 31;D 713705051698456858 32;D 420414941581007728 32;D 259261272537010626 32;D 166882522914274975 32;D 111792051917235288 32;D 777046162828491964 33;D 558764446183071202 33;D 41445841366793696 32;D 316197565022890261 33;D 247437456299089282 33;D 198093777845797102 33;D 161853295525153812 33];
 (* 34.8 *) [D 150229533518898948 18;D 215847030917957153 20;D 930375133266946044 22;D 668372940564228324 23;D 672214164349509684 24;D 869242453789580237 25;D 137380272758395052 25;D 256601083068685154 26;D 553019564514282658 27;D 135076606704513004 27;D 368743499608771111 28;D 111258703889327471 28;D 367664150627518744 29;D 132062166017499353 29;D 512299062011848976 30;D 213446877724762698 30;D 95058665240912458 30;D 450598540840513588 31;D 226483446011732904 31;D 120290034704493563 31;D 672932509550845334 32;D 39530491410303167 31;D 243119259143918209 32;D 156082698153199209 32;D 104294194586015924 32;D 723190325388092791 33;D 518859165153106145 33;D 384043492140489669 33;D 292417864476873378 33;D 228415367457546521 33;D 182563189365785921 33;D 148940313953683857 33];
 (* 34.9 *) [D 150014150564386391 18;D 214919986481927929 20;D 923724870266066053 22;D 661694033140882813 23;D 663590004572564094 24;D 855631810953618005 25;D 134841689305466567 25;D 251137815759718294 26;D 539694436491899374 27;D 131444193746978818 27;D 357799281428285058 28;D 107647248449316731 28;D 354710565344212956 29;D 127044333113016333 29;D 491422250964850592 30;D 204162585312504708 30;D 906639444343811942 31;D 428540593576896967 31;D 21478442039416917 30;D 113754374253665809 31;D 63459202925710326 31;D 371756316371882172 32;D 22802062016055982 31;D 146006383817211087 32;D 97315440152221534 32;D 673176826744268933 33;D 481879584471620852 33;D 355913965747239614 33;D 270464827338962731 33;D 210883552872239191 33;D 168270866069105046 33;D 137073061065570597 33];
 (* 35.0 *) [D 149799691340274055 18;D 213999559057533463 20;D 917140967389339055 22;D 655100690991484308 23;D 655100690982476998 24;D 84227231688739733 24;D 132357078277946484 25;D 245806001615455361 26;D 52672713731152326 26;D 127919438625488849 27;D 347209814767516016 28;D 104162854357158231 28;D 342248477871125596 29;D 122230698508721977 29;D 471452258366841703 30;D 195306928299462781 30;D 864840609372475931 31;D 407620499893307982 31;D 203720176850080463 31;D 107590591809897573 31;D 59853256626083691 31;D 349668343558469191 32;D 213895537220181505 32;D 136603542961524255 32;D 908187907370024296 33;D 626724225501664165 33;D 447606054636716764 33;D 329894417424732708 33;D 250195446890651429 33;D 19472326852503475 32;D 155116588099462162 33;D 126165717115035613 33];
 (* 35.1 *) [D 149586149262588317 18;D 213085682710238954 20;D 910622575684700587 22;D 648591578122193423 23;D 646743738860157109 24;D 829158639483034676 25;D 129925142857667747 25;D 24060211559039532 25;D 514107076467930784 27;D 124498856544790119 27;D 336962635874708732 28;D 100800707240218144 28;D 330257914732115049 29;D 117612404804090877 29;D 452347276161646297 30;D 186858981454854358 30;D 825079475006199208 31;D 387776603556052809 31;D 193254644143763272 31;D 101776591563384251 31;D 564612815584375943 32;D 328946928536506369 32;D 200679015261725175 32;D 127827701297449663 32;D 847699559157189114 33;D 583572191477715113 33;D 415835772199384688 33;D 30582315341311571 32;D 231478103714454393 33;D 179825375423892233 33;D 143008356026253221 33;D 116139589182831636 33];
 (* 35.2 *) [D 14937351781286783 17;D 212178292347822889 20;D 90416885943667194 21;D 642165383121903055 23;D 638516716165014127 24;D 816285574569447137 25;D 12754462095314951 24;D 235522736822265716 26;D 501824005782962472 27;D 121179084972884413 27;D 327045752594531893 28;D 97556188100741143 28;D 31871976763125753 28;D 113181002398458884 29;D 434067534492678562 30;D 17879889603676634 29;D 787251357647788148 31;D 368950747292382516 31;D 183353891509092448 31;D 962916447847037047 32;D 532700561592352945 32;D 309504276922637404 32;D 188310539456542768 32;D 119635686727437885 32;D 791371498047838505 33;D 543479887855342497 33;D 386381462802478585 33;D 283551111210275426 33;D 21419164513120985 32;D 166089552175440149 33;D 131861708508849344 33;D 106922513064088566 33];
 (* 35.3 *) [D 149161790537327789 18;D 211277323707262495 20;D 897778995923145576 22;D 635820818641792767 23;D 630417242272781858 24;D 803648042491209941 25;D 125214284174679376 25;D 230564545269105738 26;D 489868007411775111 27;D 117956879021326331 27;D 317447625256467753 28;D 944248648645955151 29;D 307615753674265921 29;D 108928429637434187 29;D 416575196991066378 30;D 171107841617605959 30;D 75125722317391508 30;D 35108806543002486 30;D 173985996383447982 31;D 911163019944494725 32;D 502672072578482557 32;D 291258435154721801 32;D 176733757193464756 32;D 111987388384015415 32;D 738909036863215127 33;D 506224479721717907 33;D 359070168949905895 33;D 262940855756384638 33;D 198224540065961728 33;D 15342357288690597 32;D 121599097200895116 33;D 984483058259255672 34];
 (* 35.4 *) [D 148950961046037182 18;D 21038271334185983 19;D 891452175177312465 22;D 629556620887335576 23;D 622442986747045844 24;D 791241084788244065 25;D 122932936842432748 25;D 225724318464008413 26;D 478229482301647547 27;D 114829107012477297 27;D 30815714838876454 27;D 914024843180494127 29;D 296928377523867171 29;D 104846993977897035 29;D 399834261714922418 30;D 163767951202218332 30;D 717003367606366684 31;D 334136789334084446 31;D 165120920629040025 31;D 862323109762367108 32;D 474411536993829084 32;D 274132889197426191 32;D 165896183247459154 32;D 104845533680317003 32;D 690038929577073593 33;D 471599758948932556 33;D 333742134049482758 33;D 243865656623310806 33;D 183474103087428154 33;D 141742644919367566 33;D 112149314047323521 33;D 906562647061377643 34];
 (* 35.5 *) [D 148741023012108812 18;D 209494398608603422 20;D 885187599754608484 22;D 623371549122425095 23;D 614591668143483549 24;D 779059860973088349 25;D 120699415026475003 25;D 220998928383088509 26;D 466899139085050894 27;D 111792746225650738 27;D 299163633220098762 28;D 884849644137386747 29;D 286640895390050904 29;D 100929354116690023 29;D 383810467420330937 30;D 15676226944403926 29;D 684401116634141879 31;D 318048064821106829 31;D 156730394677614675 31;D 816225402316006454 32;D 447810538366806765 32;D 258056191644480367 32;D 155748926400446259 32;D 981754819963254974 33;D 644507772893848877 33;D 439414876182941992 33;D 310249774965075043 33;D 226208639582243151 33;D 169845781890333236 33;D 130968801478018041 33;D 103446966540751421 33;D 834907083968468051 34];
 (* 35.6 *) [D 148531970170901827 18;D 208612317655760507 20;D 878984484504560279 22;D 617264385185300713 23;D 606861052845856991 24;D 767099645402623704 25;D 118512585617535664 25;D 216385338422421656 26;D 455867983389481797 27;D 108844878814452894 27;D 290456790932929845 28;D 856683869279505877 29;D 276737280761435199 29;D 971685030311998732 30;D 368471204863475783 30;D 150074703776633535 30;D 653366542827408648 31;D 302775780784544737 31;D 148787809073232664 31;D 772709075037178148 32;D 422767566179788573 32;D 242961615153403513 32;D 146246435914990867 32;D 919450337321009499 33;D 602080529629177427 33;D 409493171451400004 33;D 28845673594847453 32;D 209862006471617085 33;D 157252502969788287 33;D 121030344449268521 33;D 954319968822588356 34;D 769005570973002153 34];
 (* 35.7 *) [D 148323796319236555 18;D 207736409410695017 20;D 872842056347414204 22;D 611233933015957982 23;D 599248953932828514 24;D 755355824241226021 25;D 116371345427485405 25;D 211880600479871421 26;D 445127307547309256 27;D 105982687887975143 27;D 282026716634271083 28;D 829489904522600975 29;D 267202191789028076 29;D 93557751882947957 29;D 353785432851033201 30;D 143689978289184665 30;D 62382019945833989 30;D 288276408316574768 31;D 14126811292378626 30;D 731623130232256826 32;D 399187560165829653 32;D 228786830302258218 32;D 137346266383463927 32;D 861242535579565503 33;D 562539164426635695 33;D 381671095584416793 33;D 268237017403746028 33;D 194726317790206575 33;D 145614070676240498 33;D 111861333282463842 33;D 880492413373610176 34;D 708389480308295802 34];
 (* 35.8 *) [D 148116495314621405 18;D 206866613567906594 20;D 866759554055434987 22;D 605279018194740484 23;D 591753230074700094 24;D 743823892512429286 25;D 11427462031848674 24;D 207481852137884921 26;D 434668680689603071 27;D 103203453748828128 27;D 273863874011253657 28;D 803231637034182167 29;D 25802094023841292 28;D 900907147380516517 30;D 339723598772565621 30;D 137593590185002172 30;D 595686869912963663 31;D 274508849658454273 31;D 134147718805355092 31;D 692825771538500476 32;D 376981485672859899 32;D 215473606100035001 32;D 12900885958766418 31;D 806853067824041661 33;D 525681383093330449 33;D 355797215269911929 33;D 249474173470921934 33;D 180709832900996712 33;D 134856615241722364 33;D 103401116068864202 33;D 812480263940710893 34;D 652628834048999797 34];
 (* 35.9 *) [D 147910061074491618 18;D 206002870577286019 20;D 860736228038763818 22;D 599398487491818332 23;D 584371784459205241 24;D 732499451236281372 25;D 112221364359827659 25;D 203186313943494483 26;D 424483939208596865 27;D 100504550281326311 27;D 265959080640429294 28;D 77787439136209462 28;D 249179461930869335 29;D 86761294061002443 29;D 326257563364249023 30;D 131771768671944873 30;D 568895331742717451 31;D 261434296355625044 31;D 127404413694583271 31;D 656183821382142522 32;D 356065937912891104 32;D 202967531513517523 32;D 121197342107566523 32;D 75602307842374881 32;D 491319467525576923 33;D 331731295141692175 33;D 232060572905940528 33;D 16772790315369188 32;D 124912085736396691 33;D 955938992951927626 34;D 74981798618894178 33;D 601329080525455967 34];
 (* 36.0 *) [D 147704487575459666 18;D 205145121632582547 20;D 854771340135728397 22;D 593591208427267008 23;D 577102563745510254 24;D 721378204649672223 25;D 110210559011484328 25;D 198991286781912977 26;D 414565177574092549 27;D 978834414834345877 28;D 258303493921246408 28;D 753384868447686713 29;D 2406642885981735 27;D 835636669406393757 30;D 31336052946791121 29;D 126211436142866677 30;D 543378134464700364 31;D 249016096034789839 31;D 121017275533158345 31;D 621572176652307664 32;D 336362773071355044 32;D 191217756494765571 32;D 11387733751350672 31;D 708511799972967601 33;D 459279198829237782 33;D 309343450827892977 33;D 215896718183308124 33;D 155702413620707967 33;D 115717784251591406 33;D 883883530460604613 34;D 692077853707390316 34;D 554128142304267221 34];
 (* 36.1 *) [D 147499768852577068 18;D 204293308660078751 20;D 848864163407500368 22;D 587856068841468566 23;D 569943557045608317 24;D 710455957507007722 25;D 108241212333494375 25;D 19489414934025427 25;D 404904739489737335 27;D 953376781363771444 28;D 250888597605548596 28;D 729731087385799408 29;D 232462521079818538 29;D 804922720094871956 30;D 301006974563111683 30;D 120900171512816614 30;D 519071390275960625 31;D 237219627258419773 31;D 114966595055344861 31;D 5888732999998569 30;D 317798764397596795 32;D 180176751105450665 32;D 107016792064355237 32;D 664095253796129519 33;D 429398861821866788 33;D 288513367373852733 33;D 200890618160487315 33;D 144561269496212222 33;D 107215937914298711 33;D 817372487013257792 34;D 638866837742232092 34;D 510693712652120567 34];
 (* 36.2 *) [D 147295898998607438 18;D 203447374307468574 20;D 843013981936998249 22;D 582191976475565219 23;D 56289279493231573 23;D 699728612458692693 25;D 106312358220256284 25;D 190892355658047931 26;D 395495209375700583 27;D 928648946060834607 28;D 243706188896287071 28;D 706882329800739628 29;D 224561803795169552 29;D 775417970197859521 30;D 289172586862912271 30;D 115826175587805209 30;D 495914576899807017 31;D 226012181947790672 31;D 109233802534517771 31;D 557976744351321912 32;D 300305281532675217 32;D 169800081437897997 32;D 100585812915659461 32;D 622565046197349013 33;D 401528324639733628 33;D 269129577900390315 33;D 186957210021563773 33;D 134237923532930815 33;D 993533056208909651 34;D 755971264230952496 34;D 589823755746399279 34;D 47072077937767219 33];
 (* 36.3 *) [D 147092872163310547 18;D 202607261932934401 20;D 837220090631936667 22;D 576597858561703167 23;D 555948348473104507 24;D 68919216750497329 24;D 10442305565890305 24;D 186983432761349156 26;D 386329404164847049 27;D 904628057709080199 28;D 236748366089913882 28;D 68480908671396909 28;D 216950300426632641 29;D 747071670415710292 30;D 277834204776123756 30;D 110978238347520603 30;D 473850351831342358 31;D 215362854898875567 31;D 103801399127888611 31;D 528778708396135944 32;D 28381799145578492 31;D 16004620112848299 31;D 945565179168795033 33;D 583727253236950553 33;D 375528187665888563 33;D 251088797769082276 33;D 174017826565151925 33;D 124670941189530106 33;D 920808166367904886 34;D 699279899545990566 34;D 544616656987352342 34;D 433929356753399855 34];
 (* 36.4 *) [D 14689068255273722 17;D 201772915594419045 20;D 831481795031925258 22;D 571072661422812015 23;D 549108328289029653 24;D 678842713522772612 25;D 102572388010929617 25;D 183164978377371204 26;D 377400365400046917 27;D 881292040703095131 28;D 230007516738134027 28;D 663483007785462117 29;D 209616670753284687 29;D 719835332500771108 30;D 266969759550216826 30;D 106345708031473256 30;D 452824377295417028 31;D 205242439946406763 31;D 986528925202457022 32;D 501181620961365576 32;D 26827657954656266 31;D 150876257347604027 32;D 889028961462016115 33;D 547401387373018772 33;D 351268996449133567 33;D 234295309903469591 33;D 161999705220357013 33;D 115803600434669823 33;D 853532384460423308 34;D 646930264613936027 34;D 502940425300448349 34;D 400062407870573674 34];
 (* 36.5 *) [D 146689324428534857 18;D 200944280039088652 20;D 825798411119523135 22;D 56561535008167244 22;D 542370883638032666 24;D 668676431863233949 25;D 100759462316283722 25;D 179434658726688586 26;D 36870135162078242 26;D 858619566694127382 28;D 223476306305845312 28;D 642876852816580701 29;D 202550048577592214 29;D 69366262271543574 29;D 256558220919801649 30;D 101918461924698674 30;D 432785155273207435 31;D 195623332360320537 31;D 9377273658765442 30;D 475093752332981835 32;D 253624489367970275 32;D 142253910232360545 32;D 836006783954389313 33;D 513419439817848005 33;D 32863051370129098 32;D 218660397261899224 33;D 150835535467291038 33;D 107583523404408361 33;D 791288714520252761 34;D 598583493359017269 34;D 464514580763505097 34;D 368883941289420057 34]].

(** [boys_longfac] (boys_longfac.h:15 ff.). *)
Definition longfac_data : list dec := [
D 886226925452758014 18; D 443113462726379007 18; D 66467019408956851 17; D 166167548522392128 17; D 581586419828372446 17; D 261713888922767601 16; D 14394263890752218 14; D 935627152898894173 15; D 70172036467417063 13; D 596462309973045035 13; D 566639194474392784 12; D 594971154198112423 11; D 684216827327829286 10; D 855271034159786608 9; D 115461589611571192 7; D 167419304936778228 6; D 259499922652006254 5; D 428174872375810319 4; D 749306026657668059 3; D 138621614931668591 1; D 2703121491167537520 1; D 554139905689345192 (-1); D 119140079723209216 (-3); D 268065179377220737 (-4); D 629953171536468731 (-5); D 154338527026434839 (-7); D 39356324391740884 (-9); D 104294259638113343 (-10); D 286809214004811692 (-11); D 817406259913713322 (-12); D 24113484667454543 (-15); D 735461282357363562 (-15)].
